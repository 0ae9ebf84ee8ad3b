(** Branch nodes of the wBPTree when a key is replaced or dropped and when two nodes are merged. *)
From Verif Require Import Base ArrLemmas MapSpec SortedList SearchModel SearchProofs RankModel
  BitmapModel BitmapProofs BTreeModel BTreeLaws BTreeBranch BTreeGhost BTreeInsert BTreeSpec BitTreeModel FLeafProofs
  WbModel WbProofs WbMove XTree WbBranch WbEModel.
Open Scope nat_scope.

(** Overwriting one key of a store. *)
Lemma store_setk {V} M (b : list N) (k : arr Z) (v : arr V) a p c x kk w z y : length a = length x ->
  store M b k v (a ++ p :: c) (x ++ (kk, w) :: y) ->
  exists k', aset k p z = Ok k' /\ store M b k' v (a ++ p :: c) (x ++ (z, w) :: y).
Proof.
  intros L HS. assert (Lp : p < M) by (eapply store_lt; [exact HS|]; rewrite in_app_iff; simpl; auto).
  destruct HS as (HB & LK & LV & ND & HU & HE). destruct (@aset_ok _ k p z) as (k' & Ek); [lia|].
  exists k'. split; auto. unfold store. splits; auto.
  - now rewrite (aset_length Ek).
  - apply Forall2_app_len in HE as [H1 H2]; auto. inversion H2 as [|q e s2 y' [G1 G2] H3 EA EB]; subst.
    apply NoDup_remove in ND as [_ ND]. rewrite in_app_iff in ND. apply Forall2_app; [|constructor].
    + eapply Forall2_impl_in; [|exact H1]. intros q e Hq [F1 F2]. split; auto.
      rewrite (aget_aset q Ek). destruct (Nat.eqb_spec q p); [subst; tauto|auto].
    + split; cbn [fst snd] in *; auto. rewrite (aget_aset p Ek). now rewrite Nat.eqb_refl.
    + eapply Forall2_impl_in; [|exact H3]. intros q e Hq [F1 F2]. split; auto.
      rewrite (aget_aset q Ek). destruct (Nat.eqb_spec q p); [subst; tauto|auto].
Qed.

Section Branch.
Variable N : nat.
Hypothesis HN : 2 <= N.
Notation wbrep := (wbrep N).

Lemma wb_n_ok b ks cs : wbrep b ks cs -> aget (bs b) 0 = Ok (length ks).
Proof. intros (es & last & sl & R & c0 & -> & _ & Es & _). rewrite Es. cbn. now rewrite keys_length. Qed.
Lemma wb_len b ks cs : wbrep b ks cs -> length ks <= N.
Proof.
  intros (es & last & sl & R & c0 & -> & _ & Es & EL & _ & HS & _). rewrite Es in EL. cbn [length] in EL.
  rewrite app_length, map_length in EL. apply store_len in HS. rewrite keys_length. lia.
Qed.

Lemma wb_slot b a y bb cs : wbrep b (a ++ y :: bb) cs ->
  exists ea c eb last s1 p s2 R c0, keys ea = a /\ keys eb = bb /\ cs = map snd ea ++ c :: map snd eb ++ [last] /\
    bs b = Some (length (ea ++ (y, c) :: eb)) :: map Some (s1 ++ p :: s2) ++ R /\ length (bs b) = S N /\ wbc b = c0 ++ [Some last] /\
    length s1 = length ea /\ length s2 = length eb /\
    store N (WbModel.bb b) (wbk b) c0 (s1 ++ p :: s2) (ea ++ (y, c) :: eb) /\ sorted (ea ++ (y, c) :: eb).
Proof.
  intros (es & last & sl & R & c0 & Ek & Ec & Es & EL & Ew & HS & HO). symmetry in Ek.
  apply keys_split in Ek as (ea & eb0 & -> & Ka & Kb). destruct eb0 as [|[y0 c] eb]; [discriminate|].
  cbn [keys map fst] in Kb. injection Kb as -> Kb. pose proof (store_len HS) as LS.
  rewrite app_length in LS. cbn [length] in LS.
  destruct (@split_at _ sl (length ea)) as (s1 & s2 & -> & L1); [lia|]. rewrite app_length in LS.
  destruct s2 as [|p s2]; [cbn [length] in LS; lia|]. cbn [length] in LS.
  exists ea, c, eb, last, s1, p, s2, R, c0. splits; auto; [|lia]. rewrite Ec, map_app, <- app_assoc. reflexivity.
Qed.

Lemma wb_key_ok b a y bb cs : wbrep b (a ++ y :: bb) cs -> wb_key b (S (length a)) = Ok y.
Proof.
  intros H. destruct (wb_slot H) as (ea & c & eb & last & s1 & p & s2 & R & c0 & Ka & Kb & Ec & Es & EL & Ew & L1 & L2 & HS & HO).
  unfold wb_key. rewrite Es, slot_at by (rewrite L1, <- Ka, keys_length; auto). cbn [bind].
  destruct (store_mid L1 HS) as [E _]. exact E.
Qed.

Lemma wb_setkey_ok b a y bb cs z : wbrep b (a ++ y :: bb) cs -> ssorted (a ++ z :: bb) ->
  exists b', wb_setkey b (S (length a)) z = Ok b' /\ wbrep b' (a ++ z :: bb) cs.
Proof.
  intros H Hz. destruct (wb_slot H) as (ea & c & eb & last & s1 & p & s2 & R & c0 & Ka & Kb & Ec & Es & EL & Ew & L1 & L2 & HS & HO).
  unfold wb_setkey. rewrite Es, slot_at by (rewrite L1, <- Ka, keys_length; auto). cbn [bind].
  destruct (store_setk z L1 HS) as (k' & -> & HS'). cbn [bind]. eexists. split; [reflexivity|].
  exists (ea ++ (z, c) :: eb), last, (s1 ++ p :: s2), R, c0. cbn [bs WbModel.bb wbk wbc]. splits; auto.
  - rewrite keys_app. cbn [keys map fst]. now rewrite Ka, <- Kb.
  - rewrite Ec, map_app, <- app_assoc. reflexivity.
  - do 2 f_equal. rewrite !app_length. reflexivity.
  - now rewrite Es in EL.
  - unfold sorted. rewrite keys_app. cbn [keys map fst]. rewrite Ka. subst bb. exact Hz.
Qed.

(** 939-949 *)
Lemma wb_drop_ok b a y bb CA c1 c2 CB s : wbrep b (a ++ y :: bb) (CA ++ c1 :: c2 :: CB) -> length CA = length a ->
  exists b', wb_drop N b (S (length a)) s = Ok b' /\ wbrep b' (a ++ bb) (CA ++ s :: CB).
Proof.
  intros H LA. destruct (wb_slot H) as (ea & c & eb & last & s1 & p & s2 & R & c0 & Ka & Kb & Ec & Es & EL & Ew & L1 & L2 & HS & HO).
  assert (Lea : length ea = length a) by (rewrite <- Ka; now rewrite keys_length).
  apply app_inv_len in Ec as [-> Ec]; [|rewrite map_length; lia]. injection Ec as <- Ec.
  pose proof (store_free0 HS) as L0.
  destruct (store_free L1 HS) as (b1 & Eb & HS1).
  unfold wb_drop. rewrite Es. cbn [aget nth_error bind].
  change (aget (Some (length (ea ++ (y, c1) :: eb)) :: map Some (s1 ++ p :: s2) ++ R) (S (length a)))
    with (aget (Some (length (ea ++ (y, c1) :: eb)) :: map Some (s1 ++ p :: s2) ++ R) (S (length a))).
  rewrite slot_at by lia. cbn [bind]. rewrite Eb. cbn [bind].
  destruct (@move_down nat (fun i s => do x <- cget s (i + 1); cset s i x) 1) with
      (X := map Some s2) (P := Some (length (ea ++ (y, c1) :: eb)) :: map Some s1)
      (G := [Some p]) (R := R) (lo := S (length a)) (n := length (ea ++ (y, c1) :: eb) - S (length a))
    as (T & ET & LT); auto.
  { intros i q. now rewrite (Nat.add_comm i 1). }
  { cbn [length]. rewrite map_length. lia. }
  { rewrite app_length, map_length. cbn [length]. lia. }
  rewrite map_app, <- app_assoc. cbn [map app] in ET |- *. rewrite ET. cbn [bind].
  assert (Hsub : ssorted (a ++ bb)).
  { unfold sorted in HO. rewrite keys_app in HO. cbn [keys map fst] in HO. rewrite Ka in HO. fold (keys eb) in HO. rewrite Kb in HO.
    apply ssorted_app in HO as (O1 & O2 & O3). apply ssorted_app. splits; auto.
    - now apply ssorted_cons in O2.
    - intros u v Hu Hv. apply O3; auto. now right. }
  destruct eb as [|[y2 c3] eb].
  - cbn [map app] in Ec. injection Ec as -> ->. destruct s2; [|cbn [length] in L2; lia].
    rewrite app_length. cbn [length]. destruct (Nat.eqb_spec (S (length a)) (length ea + 1)); [|lia]. cbn [bind].
    rewrite Ew, aset_app by auto. cbn [bind map app aset lset of_opt]. eexists. split; [reflexivity|].
    exists ea, s, s1, T, c0. cbn [bs WbModel.bb wbk wbc]. rewrite app_nil_r in HS1. rewrite app_nil_r in HS1. cbn [keys map] in Kb. subst bb.
    splits; auto.
    + rewrite app_nil_r. auto.
    + do 2 f_equal. lia.
    + rewrite Es in EL. cbn [length map app] in *. rewrite !app_length, !map_length, !app_length in *. cbn [length] in *. lia.
    + rewrite app_nil_r in Hsub. unfold sorted. now rewrite Ka.
  - cbn [map app] in Ec. injection Ec as -> ->. destruct s2 as [|q s2]; [cbn [length] in L2; lia|].
    rewrite app_length. cbn [length]. destruct (Nat.eqb_spec (S (length a)) (length ea + S (S (length eb)))); [lia|].
    change (Some (length ea + S (S (length eb))) :: map Some s1 ++ map Some (q :: s2) ++ T)
      with ((Some (length ea + S (S (length eb))) :: map Some s1) ++ Some q :: map Some s2 ++ T).
    rewrite aget_app by (cbn [length]; rewrite map_length; lia). cbn [bind].
    destruct (@store_set nat N b1 (wbk b) c0 s1 q s2 ea y2 c3 s eb L1 HS1) as (v' & Ev & HS2).
    rewrite Ew, (aset_app_l [Some last] Ev). cbn [bind map app aset lset of_opt]. eexists. split; [reflexivity|].
    exists (ea ++ (y2, s) :: eb), last, (s1 ++ q :: s2), T, v'. cbn [bs WbModel.bb wbk wbc]. splits; auto.
    + rewrite keys_app, Ka, <- Kb. reflexivity.
    + rewrite map_app, <- app_assoc. reflexivity.
    + rewrite map_app, <- app_assoc. cbn [map app]. do 2 f_equal. rewrite app_length. cbn [length]. lia.
    + rewrite Es in EL. cbn [length map app] in *. rewrite !app_length, !map_length, !app_length in *. cbn [length] in *. rewrite app_length, map_length. lia.
    + unfold sorted. rewrite keys_app, Ka. cbn [keys map fst] in *. now rewrite Kb.
Qed.

(** One more entry. *)
Lemma wb_put_ok (b : wbranch) P d Q i k c sl es c0 last : bs b = P ++ d :: Q -> i = length P -> wbc b = c0 ++ [last] ->
  store N (WbModel.bb b) (wbk b) c0 sl es -> length sl < N ->
  exists u b' c0', wb_put N b i k c = Ok b' /\ bs b' = P ++ Some u :: Q /\ wbc b' = c0' ++ [last] /\
    store N (WbModel.bb b') (wbk b') c0' (sl ++ [u]) (es ++ [(k, c)]).
Proof.
  intros Eb -> Ec HS HL. destruct (@store_alloc _ _ _ _ _ _ _ k c HS HL) as (u & b' & k' & v' & Eu & Ek & Ev & Ebm & _ & _ & HS').
  exists u. unfold wb_put. rewrite Eu. cbn [bind]. rewrite Ek. cbn [bind]. rewrite Ec, (aset_app_l [last] Ev). cbn [bind].
  rewrite Ebm. cbn [bind]. rewrite Eb, aset_app by auto. cbn [bind]. eexists _, _. split; [reflexivity|].
  cbn [bs WbModel.bb wbk wbc]. splits; auto. now apply store_snoc.
Qed.

(** The copying loop of mergeBranchNodes. *)
Lemma bmerge_loop (node : wbranch) n1 F :
  (forall i s, F i s = do p <- aget (bs node) i; do k <- aget (wbk node) p; do c <- aget (wbc node) p;
                       wb_put N s (n1 + i + 1) k c) ->
  forall mid pre emid epre R2 lo (r : wbranch) P D Q sr er n2 c2 l2 c0 last,
  bs node = Some n2 :: map Some (pre ++ mid) ++ R2 -> wbc node = c2 ++ [l2] ->
  store N (WbModel.bb node) (wbk node) c2 (pre ++ mid) (epre ++ emid) ->
  length pre = length epre -> length D = length mid -> wbc r = c0 ++ [last] ->
  bs r = P ++ D ++ Q -> store N (WbModel.bb r) (wbk r) c0 sr er -> length sr + length mid <= N ->
  lo = S (length pre) -> length P = n1 + lo + 1 ->
  exists us r' c0', for_up lo (length mid) F r = Ok r' /\ bs r' = P ++ map Some us ++ Q /\ length us = length mid /\
    wbc r' = c0' ++ [last] /\ store N (WbModel.bb r') (wbk r') c0' (sr ++ us) (er ++ emid).
Proof.
  intros HF. induction mid as [|p mid IH]; intros pre emid epre R2 lo r P D Q sr er n2 c2 l2 c0 last E2 EC2 S2 LP LD EC Er Sr LM Hlo HP.
  - exists [], r, c0. assert (emid = []) as ->.
    { apply store_len in S2. rewrite !app_length in S2. cbn [length] in S2. destruct emid; auto. cbn [length] in S2. lia. }
    destruct D; [|discriminate]. rewrite !app_nil_r. auto.
  - destruct emid as [|e emid].
    { apply store_len in S2. rewrite !app_length in S2. cbn [length] in S2. lia. }
    destruct D as [|d D]; [discriminate|]. cbn [length for_up]. rewrite HF.
    rewrite E2. rewrite (@slot_at n2 pre p mid R2 lo) by auto.
    destruct (store_mid LP S2) as [Ek Ev]. cbn [bind]. rewrite Ek. cbn [bind]. rewrite EC2, (aget_app_l [l2] Ev). cbn [bind].
    cbn [length] in LM, LD.
    destruct (@wb_put_ok r P d (D ++ Q) (n1 + lo + 1) (fst e) (snd e) sr er c0 last) as (u & r1 & c1 & Et & E1 & EC1 & S1); auto.
    { lia. }
    rewrite Et. cbn [bind].
    destruct (IH (pre ++ [p]) emid (epre ++ [e]) R2 (S lo) r1 (P ++ [Some u]) D Q (sr ++ [u]) (er ++ [(fst e, snd e)]) n2 c2 l2 c1 last)
      as (us & r' & c' & EF & E' & LU & EC' & S'); auto.
    + now rewrite <- app_assoc.
    + now rewrite <- !app_assoc.
    + rewrite !app_length. cbn [length]. lia.
    + rewrite <- app_assoc. exact E1.
    + rewrite app_length. cbn [length]. lia.
    + rewrite app_length. cbn [length]. lia.
    + rewrite app_length. cbn [length]. lia.
    + exists (u :: us), r', c'. rewrite <- surjective_pairing in S'. rewrite <- (app_assoc er), <- (app_assoc sr) in S'. rewrite <- app_assoc in E'.
      splits; auto. cbn [length]. lia.
Qed.

(** mergeBranchNodes: both contents with the key of the parent between them. *)
Lemma wb_merge_ok b1 b2 k1 c1 k2 c2 x : wbrep b1 k1 c1 -> wbrep b2 k2 c2 -> length k1 + 1 + length k2 <= N ->
  ssorted (k1 ++ x :: k2) ->
  exists b, wb_merge N b1 x b2 = Ok b /\ wbrep b (k1 ++ x :: k2) (c1 ++ c2).
Proof.
  intros H1 H2 HL HO. unfold wb_merge. rewrite (wb_n_ok H1), (wb_n_ok H2). cbn [bind].
  destruct H1 as (e1 & l1 & s1 & R1 & a1 & -> & -> & E1 & L1 & W1 & S1 & O1).
  destruct H2 as (e2 & l2 & s2 & R2 & a2 & -> & -> & E2 & L2 & W2 & S2 & O2).
  rewrite !keys_length in *. pose proof (store_len S1) as N1. pose proof (store_len S2) as N2.
  pose proof (store_free0 S1) as M1. pose proof (store_free0 S2) as M2.
  rewrite W1. rewrite aget_app by auto. cbn [bind].
  assert (exists d D Q, R1 = d :: D ++ Q /\ length D = length s2) as (d & D & Q & -> & LD).
  { rewrite E1 in L1. cbn [length] in L1. rewrite app_length, map_length in L1. destruct R1 as [|d R1]; [cbn [length] in L1; lia|].
    cbn [length] in L1. destruct (@split_at _ R1 (length s2)) as (D & Q & -> & LD); [lia|]. eauto. }
  destruct (@wb_put_ok b1 (Some (length e1) :: map Some s1) d (D ++ Q) (length e1 + 1) x l1 s1 e1 a1 (Some l1)) as (u & b0 & a0 & -> & E0 & W0 & S0); auto.
  { cbn [length]. rewrite map_length. lia. }
  { lia. }
  cbn [bind].
  destruct (@bmerge_loop b2 (length e1) (fun i s => do p <- aget (bs b2) i; do k <- aget (wbk b2) p; do c <- aget (wbc b2) p;
                       wb_put N s (length e1 + i + 1) k c) (fun _ _ => eq_refl) s2 [] e2 [] R2 1 b0
             ((Some (length e1) :: map Some s1) ++ [Some u]) D Q (s1 ++ [u]) (e1 ++ [(x, l1)]) (length e2) a2 (Some l2) a0 (Some l1))
    as (us & r & a' & EF & Er & LU & W' & Sr); auto.
  { rewrite <- app_assoc. exact E0. }
  { rewrite app_length. cbn [length]. lia. }
  { rewrite app_length. cbn [length]. rewrite map_length. lia. }
  rewrite <- N2. rewrite EF. cbn [bind]. rewrite W2, aget_app by auto. cbn [bind]. rewrite W'.
  rewrite aset_app by (symmetry; exact (store_free0 Sr)). cbn [bind]. rewrite Er. cbn [app aset lset of_opt bind].
  eexists. split; [reflexivity|]. exists (e1 ++ (x, l1) :: e2), l2, (s1 ++ u :: us), Q, a'. cbn [bs WbModel.bb wbk wbc].
  rewrite <- !app_assoc in Sr. cbn [app] in Sr. splits; auto.
  - now rewrite keys_app.
  - rewrite map_app, <- !app_assoc. reflexivity.
  - rewrite map_app, <- !app_assoc. cbn [map app]. do 2 f_equal. rewrite app_length. cbn [length]. lia.
  - rewrite E1 in L1. cbn [length] in *. rewrite <- !app_assoc. cbn [app]. rewrite !app_length, !map_length in *. cbn [length] in *.
    rewrite !app_length, map_length in *. lia.
  - unfold sorted. now rewrite keys_app.
Qed.
End Branch.
