(** Branch nodes of the wBPTree satisfy the laws of [XTree]. *)
From Verif Require Import Base ArrLemmas MapSpec SortedList SearchModel SearchProofs RankModel
  BitmapModel BitmapProofs BTreeModel BTreeLaws BTreeBranch BTreeGhost BTreeInsert BTreeSpec BitTreeModel FLeafProofs
  WbModel WbProofs WbMove XTree.
Open Scope nat_scope.

Lemma aset_app_l {A} (a : arr A) : forall r i x a', aset a i x = Ok a' -> aset (a ++ r) i x = Ok (a' ++ r).
Proof.
  unfold aset. induction a as [|y a IH]; intros r [|i] x a' E; cbn [lset of_opt app] in *; try discriminate.
  - injection E as <-. reflexivity.
  - specialize (IH r i x). destruct (lset a i (Some x)) as [q|]; cbn [of_opt] in *; [|discriminate]. injection E as <-.
    specialize (IH q eq_refl). destruct (lset (a ++ r) i (Some x)); cbn [of_opt] in *; [|discriminate]. now injection IH as ->.
Qed.
Lemma aget_app_l {A} (a r : arr A) i x : aget a i = Ok x -> aget (a ++ r) i = Ok x.
Proof.
  unfold aget. destruct (nth_error a i) as [[y|]|] eqn:E; try discriminate. intros H.
  rewrite nth_error_app1 by (apply nth_error_Some; congruence). now rewrite E.
Qed.

(** Overwriting one value of a store. *)
Lemma store_set {V} M (b : list N) (k : arr Z) (v : arr V) a p c x kk w w' y : length a = length x ->
  store M b k v (a ++ p :: c) (x ++ (kk, w) :: y) ->
  exists v', aset v p w' = Ok v' /\ store M b k v' (a ++ p :: c) (x ++ (kk, w') :: y).
Proof.
  intros L HS. assert (Lp : p < M) by (eapply store_lt; [exact HS|]; rewrite in_app_iff; simpl; auto).
  destruct HS as (HB & LK & LV & ND & HU & HE). destruct (@aset_ok _ v p w') as (v' & Ev); [lia|].
  exists v'. split; auto. unfold store. splits; auto.
  - now rewrite (aset_length Ev).
  - apply Forall2_app_len in HE as [H1 H2]; auto. inversion H2 as [|q e s2 y' [G1 G2] H3 EA EB]; subst.
    apply NoDup_remove in ND as [_ ND]. rewrite in_app_iff in ND. apply Forall2_app; [|constructor].
    + eapply Forall2_impl_in; [|exact H1]. intros q e Hq [F1 F2]. split; auto.
      rewrite (aget_aset q Ev). destruct (Nat.eqb_spec q p); [subst; tauto|auto].
    + split; cbn [fst snd] in *; auto. rewrite (aget_aset p Ev). now rewrite Nat.eqb_refl.
    + eapply Forall2_impl_in; [|exact H3]. intros q e Hq [F1 F2]. split; auto.
      rewrite (aget_aset q Ev). destruct (Nat.eqb_spec q p); [subst; tauto|auto].
Qed.

(** Clearing the bits of the last positions. *)
Lemma reset_loop0 {V} M (k : arr Z) (v : arr V) ns : forall mid pre mid0 emid epre R2 lo b n2,
  ns = Some n2 :: map Some (pre ++ mid0 ++ mid) ++ R2 -> store M b k v (pre ++ mid) (epre ++ emid) ->
  length pre = length epre -> lo = S (length pre + length mid0) ->
  exists b', for_up lo (length mid) (fun i b => do p <- aget ns i; bm_reset M b p) b = Ok b' /\
    store M b' k v pre epre.
Proof.
  induction mid as [|p mid IH]; intros pre mid0 emid epre R2 lo b n2 E2 S2 LP Lo.
  - exists b. assert (emid = []) as ->.
    { apply store_len in S2. rewrite !app_length in S2. cbn [length] in S2. destruct emid; auto. cbn [length] in S2. lia. }
    rewrite !app_nil_r in S2. auto.
  - destruct emid as [|e emid].
    { apply store_len in S2. rewrite !app_length in S2. cbn [length] in S2. lia. }
    cbn [length for_up]. rewrite E2. replace (pre ++ mid0 ++ p :: mid) with ((pre ++ mid0) ++ p :: mid) by now rewrite <- app_assoc.
    rewrite slot_at by (rewrite app_length; lia). cbn [bind].
    destruct (store_free LP S2) as (b1 & Eb & Sb). rewrite Eb. cbn [bind].
    replace ((pre ++ mid0) ++ p :: mid) with (pre ++ (mid0 ++ [p]) ++ mid) by now rewrite <- !app_assoc.
    destruct (IH pre (mid0 ++ [p]) emid epre R2 (S lo) b1 n2) as (b' & EF & S'); auto.
    + rewrite E2, <- !app_assoc. reflexivity.
    + rewrite app_length. cbn [length]. lia.
    + exists b'. split; auto. rewrite E2 in EF. rewrite <- !app_assoc in *. exact EF.
Qed.

Section Branch.
Variable N : nat.
Hypothesis HN : 2 <= N.

Definition wbrep (b : wbranch) (ks : list Z) (cs : list nat) : Prop :=
  exists es last sl R c0, ks = keys es /\ cs = map snd es ++ [last] /\
    bs b = Some (length es) :: map Some sl ++ R /\ length (bs b) = S N /\ wbc b = c0 ++ [Some last] /\
    store N (bb b) (wbk b) c0 sl es /\ sorted es.
(** The first child is at position 0. *)
Definition wbsp (b : wbranch) (ks : list Z) (cs : list nat) : Prop :=
  exists c, hd_error cs = Some c /\ aget (wbc b) 0 = Ok c /\ (ks <> [] -> aget (bs b) 1 = Ok 0).

Definition wb_root (si : split) : res wbranch :=
  do ks <- aset (wbk (wb_new N)) 0 (skey si);
  do cs <- aset (wbc (wb_new N)) 0 (sleft si);
  do cs' <- aset cs N (sright si);
  do s1 <- aset (bs (wb_new N)) 1 0;
  do b1 <- bm_set N (bb (wb_new N)) 0 true;
  do s2 <- aset s1 0 1;
  Ok (WBranch s2 b1 ks cs').
Definition wbq : brops wbranch :=
  BrOps (fun b k => wb_pos b k) (wb_child N) (fun b => do n <- aget (bs b) 0; Ok (n =? N)) (wb_split N) (wb_add N)
    (fun b k si => do p <- wb_pos b k; wb_add N b p si) wb_root (fun b => aget (wbc b) 0).

Lemma wb_pos_ok b a bb cs k : wbrep b (a ++ bb) cs -> ale k a -> agt k bb -> wb_pos b k = Ok (S (length a)).
Proof.
  intros (es & last & sl & R & c0 & Ek & _ & Es & EL & _ & HS & HO) Ha Hb. unfold wb_pos.
  apply (@sbsearch_pos_correct true k a bb).
  - rewrite Ek. eapply slot_keys_store; eauto.
  - rewrite Ek. exact HO.
  - split; auto.
Qed.

Lemma keys_split {V} (es : list (Z * V)) a b : keys es = a ++ b -> exists ea eb, es = ea ++ eb /\ keys ea = a /\ keys eb = b.
Proof. unfold keys. intros H. apply map_eq_app in H as (ea & eb & -> & H1 & H2). eauto. Qed.

Lemma store_free0 (b : list BinNums.N) (k : arr Z) (v : arr nat) sl es : store N b k v sl es -> length v = N.
Proof. intros (_ & _ & H & _). exact H. Qed.

Lemma wb_child_ok b a bb CA c CB : wbrep b (a ++ bb) (CA ++ c :: CB) -> length CA = length a -> length CB = length bb ->
  wb_child N b (S (length a)) = Ok c.
Proof.
  intros (es & last & sl & R & c0 & Ek & Ec & Es & EL & Ew & HS & HO) La Lb. unfold wb_child. rewrite Es. cbn [aget nth_error bind].
  symmetry in Ek. apply keys_split in Ek as (ea & eb & -> & Ka & Kb). rewrite app_length.
  apply (f_equal (@length _)) in Ka, Kb. rewrite keys_length in Ka, Kb.
  rewrite map_app, <- app_assoc in Ec. apply app_inv_len in Ec as [-> Ec]; [|rewrite map_length; lia].
  destruct eb as [|[k1 c1] eb]; cbn [length map app snd] in *.
  - destruct (Nat.eqb_spec (S (length a)) (length ea + 0 + 1)); [|lia].
    injection Ec as -> ->. rewrite Ew. apply aget_app. symmetry. exact (store_free0 HS).
  - destruct (Nat.eqb_spec (S (length a)) (length ea + S (length eb) + 1)); [lia|]. injection Ec as -> _.
    pose proof (store_len HS) as LS. rewrite app_length in LS. cbn [length] in LS.
    destruct (@split_at _ sl (length ea)) as (s1 & s2 & -> & L1); [lia|]. rewrite app_length in LS.
    destruct s2 as [|p s2]; [cbn [length] in LS; lia|].
    rewrite slot_at by lia. cbn [bind]. destruct (store_mid L1 HS) as [_ Ev]. cbn [snd] in Ev. rewrite Ew. now apply aget_app_l.
Qed.

Lemma wb_add_ok b a bb CA c CB s l r : wbrep b (a ++ bb) (CA ++ c :: CB) -> length CA = length a -> length CB = length bb ->
  length (a ++ bb) < N -> ssorted (a ++ s :: bb) ->
  exists b', wb_add N b (S (length a)) (Split s l r) = Ok b' /\ wbrep b' (a ++ s :: bb) (CA ++ l :: r :: CB) /\
    (a <> [] -> wbsp b (a ++ bb) (CA ++ c :: CB) -> wbsp b' (a ++ s :: bb) (CA ++ l :: r :: CB)).
Proof.
  intros (es & last & sl & R & c0 & Ek & Ec & Es & EL & Ew & HS & HO) La Lb LN HO'.
  pose proof (store_len HS) as LS. pose proof (store_free0 HS) as L0.
  assert (Les : length es < N). { rewrite <- (keys_length es), <- Ek. exact LN. }
  destruct (@store_alloc _ _ _ _ _ _ _ s l HS) as (u & b' & k' & v' & Eu & Eks & Ev & Eb & NI & Lu & HS'); [lia|].
  unfold wb_add. cbn [skey sleft sright]. rewrite Eu. cbn [bind]. rewrite Eks. cbn [bind]. rewrite Ew.
  rewrite (aset_app_l [Some last] Ev). cbn [bind].
  assert (En : aget (bs b) 0 = Ok (length es)) by (rewrite Es; reflexivity). rewrite En. cbn [bind]. clear En.
  symmetry in Ek. apply keys_split in Ek as (ea & eb & -> & Ka & Kb).
  assert (Lea : length ea = length a) by (rewrite <- Ka; now rewrite keys_length).
  assert (Leb : length eb = length bb) by (rewrite <- Kb; now rewrite keys_length).
  rewrite map_app, <- app_assoc in Ec. apply app_inv_len in Ec as [-> Ec]; [|rewrite map_length; lia].
  rewrite app_length in LS, Les. rewrite (app_length ea eb).
  destruct (@split_at _ sl (length ea)) as (s1 & s2 & -> & L1); [lia|]. rewrite app_length in LS.
  apply store_move in HS'; [|exact L1].
  assert (LR : 0 < length R).
  { rewrite Es in EL. cbn [length] in EL. rewrite app_length, map_length, app_length in EL. lia. }
  destruct R as [|d0 R]; [simpl in LR; lia|].
  assert (NI1 : ~ In u s1) by (rewrite in_app_iff in NI; tauto).
  destruct eb as [|[k1 c1] eb]; cbn [length map app snd] in *.
  - destruct (Nat.leb_spec (S (length a)) (length ea + 0)); [lia|].
    injection Ec as -> ->. destruct s2; [|cbn [length] in LS; lia].
    rewrite aset_app by (rewrite (aset_length Ev); lia). cbn [bind fst snd].
    rewrite !app_nil_r in Es. rewrite Es. change (Some (length ea) :: map Some s1 ++ d0 :: R) with ((Some (length ea) :: map Some s1) ++ d0 :: R).
    rewrite aset_app by (cbn [length]; rewrite map_length; lia). cbn [bind]. rewrite Eb. cbn [bind app aget nth_error aset lset of_opt].
    eexists. split; [reflexivity|]. destruct bb as [|? ?]; [|cbn [length] in Leb; lia]. split.
    + exists (ea ++ [(s, l)]), r, (s1 ++ [u]), R, v'. cbn [bs WbModel.bb wbk wbc]. splits; auto.
      * now rewrite keys_app, Ka.
      * now rewrite map_app, <- app_assoc.
      * rewrite map_app, <- app_assoc. cbn [map app]. do 2 f_equal. rewrite !app_length. cbn [length]. lia.
      * rewrite Es in EL. cbn [length] in *. rewrite !app_length, !map_length in *. cbn [length] in *.
        rewrite ?app_length in EL. cbn [length] in *. lia.
      * unfold sorted. rewrite keys_app, Ka. exact HO'.
    + intros Hne (c' & H1 & H2 & H3). exists c'. cbn [bs wbc].
      destruct ea as [|[x cx] ea]; [cbn in Ka; congruence|]. cbn [map app hd_error snd] in *. splits; auto.
      * injection H1 as <-. destruct s1 as [|p s1]; [cbn [length] in L1; lia|].
        assert (p = 0) as ->.
        { rewrite app_nil_r in H3. specialize (H3 Hne). rewrite Es in H3. cbn in H3. congruence. }
        apply aget_app_l. rewrite (aget_aset 0 Ev). destruct (Nat.eqb_spec 0 u) as [<-|_]; [simpl in NI1; tauto|].
        rewrite Ew in H2. unfold aget in *. rewrite nth_error_app1 in H2 by lia. exact H2.
      * intros _. rewrite app_nil_r in H3. specialize (H3 Hne). rewrite Es in H3.
        destruct s1 as [|p s1]; [cbn [length] in L1; lia|]. cbn in *. exact H3.
  - destruct (Nat.leb_spec (S (length a)) (length ea + S (length eb))); [|lia].
    injection Ec as -> ->. destruct s2 as [|q s2]; [cbn [length] in LS; lia|].
    destruct (@move_up nat (fun j s => do x <- cget s j; cset s (j + 1) x) 1 (fun _ _ => eq_refl)
              (map Some (q :: s2)) (Some (length (ea ++ (k1, c1) :: eb)) :: map Some s1) [d0] R
              (length ea + S (length eb)) (length ea + S (length eb) + 1 - S (length a))) as (D & ED & LD); auto.
    { cbn [length]. rewrite !map_length. cbn [length] in *. lia. }
    { rewrite map_length. cbn [length] in *. lia. }
    destruct D as [|d [|? ?]]; try discriminate LD.
    rewrite Es. rewrite map_app, <- app_assoc. cbn [app] in ED |- *. rewrite ED. cbn [bind].
    assert (EQ : aget (Some (length (ea ++ (k1, c1) :: eb)) :: map Some s1 ++ d :: map Some (q :: s2) ++ R) (S (length a) + 1) = Ok q).
    { cbn [map app]. replace (Some (length (ea ++ (k1, c1) :: eb)) :: map Some s1 ++ d :: Some q :: map Some s2 ++ R)
        with ((Some (length (ea ++ (k1, c1) :: eb)) :: map Some s1 ++ [d]) ++ Some q :: map Some s2 ++ R)
        by (cbn [app]; now rewrite <- app_assoc).
      apply aget_app. cbn [length]. rewrite app_length, map_length. cbn [length]. lia. }
    rewrite EQ. cbn [bind].
    destruct (@store_set nat N b' k' v' (s1 ++ [u]) q s2 (ea ++ [(s, l)]) k1 c1 r eb) as (v2 & Ev2 & HS2).
    { rewrite !app_length. cbn [length]. lia. }
    { rewrite <- !app_assoc. exact HS'. }
    rewrite (aset_app_l [Some last] Ev2). cbn [bind fst snd].
    change (Some (length (ea ++ (k1, c1) :: eb)) :: map Some s1 ++ d :: map Some (q :: s2) ++ R)
      with ((Some (length (ea ++ (k1, c1) :: eb)) :: map Some s1) ++ d :: map Some (q :: s2) ++ R).
    rewrite aset_app by (cbn [length]; rewrite map_length; lia). cbn [bind]. rewrite Eb. cbn [bind app aget nth_error aset lset of_opt].
    eexists. split; [reflexivity|]. rewrite <- !app_assoc in HS2. cbn [app] in HS2. split.
    + exists (ea ++ (s, l) :: (k1, r) :: eb), last, (s1 ++ u :: q :: s2), R, v2. cbn [bs WbModel.bb wbk wbc]. splits; auto.
      * rewrite keys_app. cbn [keys map fst] in *. now rewrite Ka, <- Kb.
      * rewrite map_app, <- app_assoc. reflexivity.
      * rewrite map_app, <- app_assoc. cbn [map app]. do 2 f_equal. rewrite !app_length. cbn [length]. lia.
      * rewrite Es in EL. cbn [length] in *. rewrite !app_length, !map_length in *. cbn [length] in *.
        rewrite ?app_length in EL. rewrite !app_length, !map_length. cbn [length] in *. lia.
      * unfold sorted. rewrite keys_app. cbn [keys map fst] in *. rewrite Ka. rewrite <- Kb in HO'. exact HO'.
    + intros Hne (c' & H1 & H2 & H3). exists c'. cbn [bs wbc].
      destruct ea as [|[x cx] ea]; [cbn in Ka; congruence|]. cbn [map app hd_error snd] in *.
      destruct s1 as [|p s1]; [cbn [length] in L1; lia|].
      assert (p = 0) as ->.
      { assert (G : a ++ bb <> []) by (destruct a; discriminate). specialize (H3 G). rewrite Es in H3. cbn in H3. congruence. }
      splits; auto. injection H1 as <-. apply aget_app_l. rewrite (aget_aset 0 Ev2), (aget_aset 0 Ev).
      destruct HS as (_ & _ & _ & ND & _). cbn [app] in ND. inversion ND as [|? ? N1 N2]; subst.
      destruct (Nat.eqb_spec 0 q) as [<-|_]; [exfalso; apply N1; apply in_or_app; right; left; auto|].
      destruct (Nat.eqb_spec 0 u) as [<-|_]; [simpl in NI1; tauto|].
      rewrite Ew in H2. unfold aget in *. rewrite nth_error_app1 in H2 by lia. exact H2.
Qed.

Lemma bsplit_loop (b : wbranch) middle last F :
  (forall i (s : wbranch), F i s =
     do s1 <- aset (bs s) (i + 1) i;
     do b1 <- bm_set N (bb s) i true;
     do p <- aget (bs b) (middle + i + 1);
     do k <- aget (wbk b) p;
     do ks <- aset (wbk s) i k;
     do c <- aget (wbc b) p;
     do cs <- aset (wbc s) i c;
     Ok (WBranch s1 b1 ks cs)) ->
  forall mid pre emid epre R2 j (r : wbranch) n2 n3 Q er c0 c1,
  bs b = Some n2 :: map Some (pre ++ mid) ++ R2 -> wbc b = c0 ++ [last] -> store N (bb b) (wbk b) c0 (pre ++ mid) (epre ++ emid) ->
  length pre = length epre -> length pre = middle + j -> j + length mid < N ->
  bs r = Some n3 :: map Some (seq 0 j) ++ Q -> length mid <= length Q -> wbc r = c1 ++ [None] ->
  store N (bb r) (wbk r) c1 (seq 0 j) er ->
  exists r' Q' c1', for_up j (length mid) F r = Ok r' /\ bs r' = Some n3 :: map Some (seq 0 (j + length mid)) ++ Q' /\
    length (bs r') = length (bs r) /\ wbc r' = c1' ++ [None] /\
    store N (bb r') (wbk r') c1' (seq 0 (j + length mid)) (er ++ emid).
Proof.
  intros HF. induction mid as [|p mid IH]; intros pre emid epre R2 j r n2 n3 Q er c0 c1 E2 EC S2 LP LJ LM Er LQ EC1 Sr.
  - assert (emid = []) as ->.
    { apply store_len in S2. rewrite !app_length in S2. cbn [length] in S2. destruct emid; auto. cbn [length] in S2. lia. }
    exists r, Q, c1. rewrite Nat.add_0_r, app_nil_r. splits; auto.
  - destruct emid as [|e emid].
    { apply store_len in S2. rewrite !app_length in S2. cbn [length] in S2. lia. }
    destruct Q as [|q Q]; [simpl in LQ; lia|]. cbn [length for_up] in *. rewrite HF.
    rewrite Er. change (Some n3 :: map Some (seq 0 j) ++ q :: Q) with ((Some n3 :: map Some (seq 0 j)) ++ q :: Q).
    rewrite aset_app by (cbn [length]; rewrite map_length, seq_length; lia). cbn [bind].
    destruct (store_mid LP S2) as [Ek Ev].
    destruct (@store_put _ _ _ _ _ _ _ j (fst e) (snd e) Sr) as (b' & k' & v' & Ek' & Ev' & Eb & Sr'); [lia| |].
    { rewrite in_seq. lia. }
    rewrite Eb. cbn [bind]. rewrite E2. rewrite slot_at by lia. cbn [bind]. rewrite Ek. cbn [bind].
    rewrite Ek'. cbn [bind]. rewrite EC, (aget_app_l [last] Ev). cbn [bind]. rewrite EC1, (aset_app_l [None] Ev'). cbn [bind].
    apply store_snoc in Sr'. rewrite <- surjective_pairing in Sr'.
    replace (seq 0 j ++ [j]) with (seq 0 (S j)) in Sr' by (rewrite seq_S; reflexivity).
    destruct (IH (pre ++ [p]) emid (epre ++ [e]) R2 (S j)
                (WBranch ((Some n3 :: map Some (seq 0 j)) ++ Some j :: Q) b' k' (v' ++ [None])) n2 n3 Q (er ++ [e]) c0 v')
      as (r' & Q' & c1' & EF & E' & L' & C' & S'); cbn [bs bb wbk wbc]; auto.
    + now rewrite <- app_assoc.
    + now rewrite <- !app_assoc.
    + rewrite !app_length. cbn [length]. lia.
    + rewrite app_length. cbn [length]. lia.
    + lia.
    + rewrite seq_S. cbn [app]. rewrite map_app, <- app_assoc. reflexivity.
    + lia.
    + exists r', Q', c1'. rewrite <- app_assoc in S'. replace (j + S (length mid)) with (S j + length mid) by lia.
      splits; auto. cbn [bs length app] in L'. rewrite L'. cbn [length]. rewrite !app_length. reflexivity.
Qed.

Lemma anew_S {A} n : anew (A := A) (S n) = anew n ++ [None].
Proof. unfold anew. replace (S n) with (n + 1) by lia. now rewrite repeat_app. Qed.

Lemma store_new (V : Type) : store N (bm_new N) (anew N) (anew (A := V) N) [] [].
Proof.
  unfold store. splits; auto.
  - apply bm_new_ok.
  - apply repeat_length.
  - apply repeat_length.
  - constructor.
  - intros i. rewrite bit_new. split; [discriminate|intros []].
Qed.

Lemma wb_split_ok b ks cs s : wbrep b ks cs -> length ks = N ->
  exists a sk bb ca cb b1 b2, wb_split N b s = Ok (b1, b2, sk) /\ ks = a ++ sk :: bb /\ cs = ca ++ cb /\
    length ca = S (length a) /\ wbrep b1 a ca /\ wbrep b2 bb cb /\ (wbsp b ks cs -> wbsp b1 a ca).
Proof.
  intros (es & last & sl & R & c0 & Ek & Ec & Es & EL & Ew & HS & HO) LN.
  assert (Les : length es = N) by (rewrite <- (keys_length es), <- Ek; exact LN).
  pose proof (store_len HS) as LS. pose proof (store_free0 HS) as L0.
  unfold wb_split. set (m0 := (N + 1) / 2).
  assert (Hm0 : 1 <= m0 /\ S m0 <= N).
  { unfold m0. split; [apply (Nat.div_le_mono 2 (N + 1) 2); lia|].
    destruct (Nat.eq_dec N 2) as [->|]; [cbn; lia|].
    assert ((N + 1) / 2 <= N - 1); [|lia]. apply Nat.div_le_upper_bound; lia. }
  assert (HG : forall m, 1 <= m <= N -> exists ea k c eb s1 p s2, es = ea ++ (k, c) :: eb /\ sl = s1 ++ p :: s2 /\
            S (length ea) = m /\ length s1 = length ea /\ length s2 = length eb).
  { intros m Hm. destruct (@split_at _ es (m - 1)) as (ea & eb & -> & Le); [lia|].
    destruct (@split_at _ sl (m - 1)) as (s1 & s2 & -> & L1); [rewrite LS; lia|]. rewrite !app_length in LS. rewrite app_length in Les.
    destruct eb as [|[k c] eb]; [cbn [length] in Les; lia|]. destruct s2 as [|p s2]; [cbn [length] in LS; lia|].
    cbn [length] in LS. exists ea, k, c, eb, s1, p, s2. splits; auto; lia. }
  assert (E0 : exists km pm, aget (bs b) m0 = Ok pm /\ aget (wbk b) pm = Ok km).
  { destruct (HG m0) as (ea & k & c & eb & s1 & p & s2 & -> & -> & Lm & L1 & L2); [lia|].
    exists k, p. rewrite Es. rewrite slot_at by lia. destruct (store_mid L1 HS). auto. }
  destruct E0 as (km & pm & E1 & E2). rewrite E1. cbn [bind]. rewrite E2. cbn [bind]. clear E1 E2.
  assert (Hmid : exists m, (if (s >? km)%Z then S m0 else m0) = m /\ 1 <= m <= N) by (destruct (s >? km)%Z; eexists; split; eauto; lia).
  destruct Hmid as (m & -> & Hm).
  destruct (HG m Hm) as (ea & sk & cm & eb & s1 & p & s2 & -> & -> & Lm & L1 & L2). clear HG.
  assert (En : aget (bs b) 0 = Ok N) by (rewrite Es, Les; reflexivity). rewrite En. cbn [bind].
  destruct (Nat.ltb_spec N m); [lia|].
  cbn [wb_new bs aset lset of_opt bind]. rewrite app_length in Les. cbn [length] in Les.
  match goal with |- context [for_up 0 (N - m) ?f ?s] =>
    destruct (@bsplit_loop b m (Some last) f (fun _ _ => eq_refl) s2 (s1 ++ [p]) eb (ea ++ [(sk, cm)]) R 0 s
      (length (ea ++ (sk, cm) :: eb)) (N - m) (anew N) [] c0 (anew N)) as (r' & Q' & c1' & EF & E' & L' & C' & S') end.
  { rewrite <- app_assoc. exact Es. }
  { exact Ew. }
  { rewrite <- !app_assoc. exact HS. }
  { rewrite !app_length. cbn [length]. lia. }
  { rewrite app_length. cbn [length]. lia. }
  { lia. }
  { reflexivity. }
  { unfold anew. rewrite repeat_length. lia. }
  { apply anew_S. }
  { apply store_new. }
  replace (length s2) with (N - m) in EF by lia. rewrite EF. cbn [bind]. clear EF.
  destruct (@reset_loop0 nat N (wbk b) c0 (bs b) (p :: s2) s1 [] ((sk, cm) :: eb) ea R m (WbModel.bb b) (length (ea ++ (sk, cm) :: eb)))
    as (b' & EB & SB); auto.
  { cbn [length]. lia. }
  replace (length (p :: s2)) with (N + 1 - m) in EB by (cbn [length]; lia). rewrite EB. cbn [bind].
  assert (Ens : aset (bs b) 0 (m - 1) = Ok (Some (m - 1) :: map Some (s1 ++ p :: s2) ++ R)) by (rewrite Es; reflexivity).
  rewrite Ens. cbn [bind]. clear Ens. rewrite Ew. rewrite aget_app by lia. cbn [bind]. rewrite C'.
  assert (Lc1 : length c1' = N) by exact (store_free0 S').
  rewrite aset_app by lia. cbn [bind]. rewrite slot_at by lia. cbn [bind]. destruct (store_mid L1 HS) as [Hk Hc]. cbn [fst snd] in *.
  rewrite (aget_app_l [Some last] Hc). cbn [bind]. rewrite aset_app by lia. cbn [bind]. rewrite Hk. cbn [bind].
  unfold sorted in HO. rewrite keys_app in HO, Ek. cbn [keys map fst] in HO, Ek. apply ssorted_app in HO as (O1 & O2 & O3).
  exists (keys ea), sk, (keys eb), (map snd ea ++ [cm]), (map snd eb ++ [last]). eexists. eexists. split; [reflexivity|].
  splits.
  - exact Ek.
  - rewrite Ec, map_app, <- !app_assoc. reflexivity.
  - rewrite app_length, map_length, keys_length. cbn [length]. lia.
  - exists ea, cm, s1, (Some p :: map Some s2 ++ R), c0. cbn [bs WbModel.bb wbk wbc]. splits; auto.
    + rewrite map_app, <- app_assoc. cbn [map app]. do 2 f_equal. lia.
    + rewrite Es in EL. exact EL.
  - exists eb, last, (seq 0 (length s2)), Q', c1'. cbn [bs WbModel.bb wbk wbc]. splits; auto.
    + rewrite E'. cbn [Nat.add]. do 2 f_equal. lia.
    + rewrite L'. cbn [bs length]. unfold anew. now rewrite repeat_length.
    + apply StronglySorted_inv in O2. apply O2.
  - intros (c & H1 & H2 & H3). exists c. cbn [bs wbc]. splits.
    + rewrite Ec, map_app in H1. destruct ea; exact H1.
    + rewrite Ew in H2. unfold aget in *. rewrite nth_error_app1 in * by lia. exact H2.
    + intros Hne. assert (G : ks <> []) by (rewrite Ek; destruct (keys ea); discriminate).
      specialize (H3 G). rewrite Es in H3. exact H3.
Qed.

Lemma wb_root_ok s l r : exists b, wb_root (Split s l r) = Ok b /\ wbrep b [s] [l; r] /\ wbsp b [s] [l; r].
Proof.
  unfold wb_root. cbn [wb_new bs WbModel.bb wbk wbc skey sleft sright].
  destruct (@store_put _ _ _ _ _ _ _ 0 s l (store_new nat)) as (b' & k' & v' & Ek & Ev & Eb & HS); [lia|simpl; tauto|].
  rewrite Ek. cbn [bind]. rewrite anew_S, (aset_app_l [None] Ev). cbn [bind].
  assert (Lv : length v' = N) by exact (store_free0 HS). rewrite aset_app by lia. cbn [bind].
  destruct N as [|n] eqn:En; [lia|]. unfold anew at 1. cbn [repeat aset lset of_opt bind]. rewrite Eb. cbn [bind aset lset of_opt].
  eexists. split; [reflexivity|]. split.
  - exists [(s, l)], r, [0], (repeat None n), v'. cbn [bs WbModel.bb wbk wbc]. splits; auto.
    + rewrite En. cbn [length]. now rewrite repeat_length.
    + now rewrite En.
    + repeat constructor.
  - exists l. cbn [bs wbc hd_error]. splits; auto. apply aget_app_l.
    rewrite (aget_aset 0 Ev). reflexivity.
Qed.

Lemma wb_laws : br_laws N wbq (fun _ => True) wbrep wbsp.
Proof.
  constructor.
  - intros b ks cs (es & last & sl & R & c0 & -> & -> & Es & EL & Ew & HS & HO). rewrite app_length, map_length, keys_length. splits.
    + rewrite Es in EL. cbn [length] in EL. rewrite app_length, map_length in EL. apply store_len in HS. lia.
    + cbn [length]. lia.
    + apply Forall_forall. auto.
  - intros b a bb CA c CB k H LA LB HO Ha Hb _. exists (S (length a)). cbn [wbq xo_pos xo_child xo_add0].
    rewrite (wb_pos_ok H Ha Hb), (wb_child_ok H LA LB). splits; auto. intros HL s l r _ HO'.
    apply (wb_add_ok l r H LA LB HL HO').
  - intros b a bb CA c CB k s l r H LA LB Ha Hb _ HL _ HO'. cbn [wbq xo_add1]. rewrite (wb_pos_ok H Ha Hb). cbn [bind].
    apply (wb_add_ok l r H LA LB HL HO').
  - intros b ks cs (es & last & sl & R & c0 & -> & _ & Es & _). cbn [wbq xo_full]. rewrite Es. cbn [aget nth_error bind].
    now rewrite keys_length.
  - intros b ks cs s H HL _ _. exact (wb_split_ok s H HL).
  - intros s l r _. exact (wb_root_ok s l r).
  - intros b ks c cs (c' & E & H & _). cbn [hd_error] in E. injection E as ->. exact H.
Qed.
End Branch.
