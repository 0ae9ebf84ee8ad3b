(** wBPTree leaves: split, merge and balance. *)
From Verif Require Import Base ArrLemmas MapSpec SortedList SearchModel SearchProofs RankModel
  BitmapModel BitmapProofs BTreeModel BitTreeModel FLeafProofs WbModel WbProofs.
Open Scope nat_scope.

Section Move.
Variables (V : Type) (M : nat).
Notation leaf := (wleaf V).

Lemma store_put (b : list N) (k : arr Z) (v : arr V) sl es u key val : store M b k v sl es -> u < M -> ~ In u sl ->
  exists b' k' v', aset k u key = Ok k' /\ aset v u val = Ok v' /\
    bm_set M b u true = Ok b' /\ store M b' k' v' (u :: sl) ((key, val) :: es).
Proof.
  intros (HB & LK & LV & ND & HU & HE) Lu NI.
  destruct (@aset_ok _ k u key) as (k' & Ek); [lia|]. destruct (@aset_ok _ v u val) as (v' & Ev); [lia|].
  destruct (@bm_set_ok M b u true HB Lu) as (b' & Eb & HB' & Hbit).
  exists b', k', v'. splits; auto. unfold store. splits; auto.
  - now rewrite (aset_length Ek).
  - now rewrite (aset_length Ev).
  - constructor; auto.
  - intros i. rewrite Hbit. destruct (Nat.eqb_spec i u) as [->|NE].
    + split; auto. now left.
    + rewrite HU. simpl. split; [auto|intros [E|]; [congruence|auto]].
  - constructor.
    + split; cbn [fst snd]; [rewrite (aget_aset u Ek)|rewrite (aget_aset u Ev)]; now rewrite Nat.eqb_refl.
    + eapply Forall2_impl_in; [|exact HE]. intros p e Hp. apply (@ent_other _ _ _ _ _ _ _ _ _ _ Ek Ev).
      intros ->. auto.
Qed.

Lemma store_comm (b : list N) (k : arr Z) (v : arr V) a c x y : length a = length x ->
  store M b k v (a ++ c) (x ++ y) -> store M b k v (c ++ a) (y ++ x).
Proof.
  intros HL (HB & LK & LV & ND & HU & HE). unfold store. splits; auto.
  - apply Permutation.Permutation_NoDup with (a ++ c); auto. apply Permutation.Permutation_app_comm.
  - intros i. rewrite HU, !in_app_iff. tauto.
  - apply Forall2_app_len in HE as [H1 H2]; auto. now apply Forall2_app.
Qed.

Lemma store_snoc (b : list N) (k : arr Z) (v : arr V) u sl e es :
  store M b k v (u :: sl) (e :: es) -> store M b k v (sl ++ [u]) (es ++ [e]).
Proof. intros H. apply (@store_comm b k v [u] sl [e] es); auto. Qed.

Lemma store_mid (b : list N) (k : arr Z) (v : arr V) a p c x e y : length a = length x ->
  store M b k v (a ++ p :: c) (x ++ e :: y) -> aget k p = Ok (fst e) /\ aget v p = Ok (snd e).
Proof.
  intros HL (_ & _ & _ & _ & _ & HE). apply Forall2_app_len in HE as [_ HE]; auto. now inversion HE.
Qed.

Lemma slot_at (x : nat) (a : list nat) p c R i : i = S (length a) ->
  aget (Some x :: map Some (a ++ p :: c) ++ R) i = Ok p.
Proof.
  intros ->. rewrite map_app, <- app_assoc. cbn [map app].
  apply (@aget_app _ (Some x :: map Some a)). cbn [length]. now rewrite map_length.
Qed.

Lemma w_take_ok (r : leaf) P d Q i key val sl es : ws r = P ++ d :: Q -> i = length P ->
  store M (wb r) (wk r) (wv r) sl es -> length sl < M ->
  exists u r', w_take M r i key val = Ok r' /\ ws r' = P ++ Some u :: Q /\
    store M (wb r') (wk r') (wv r') (sl ++ [u]) (es ++ [(key, val)]).
Proof.
  intros Ew -> HS HL. destruct (@store_alloc _ _ _ _ _ _ _ key val HS HL) as (u & b' & k' & v' & Eu & Ek & Ev & Eb & _ & _ & HS').
  exists u. unfold w_take. rewrite Eu. cbn [bind]. rewrite Ek. cbn [bind]. rewrite Ev. cbn [bind].
  rewrite Ew, aset_app by auto. cbn [bind]. rewrite Eb. cbn [bind]. eexists. split; [reflexivity|].
  cbn [ws wb wk wv]. split; auto. now apply store_snoc.
Qed.

(** The copying loop of mergeLeafNodes. *)
Lemma merge_loop (l2 : leaf) (fd fw : nat -> nat) F : 
  (forall i s, F i s = do e <- w_entry l2 (fd i); w_take M s (fw i) (snd (fst e)) (snd e)) ->
  forall mid pre emid epre R2 lo (r : leaf) P D Q sr er n2,
  ws l2 = Some n2 :: map Some (pre ++ mid) ++ R2 -> store M (wb l2) (wk l2) (wv l2) (pre ++ mid) (epre ++ emid) ->
  length pre = length epre -> length D = length mid ->
  ws r = P ++ D ++ Q -> store M (wb r) (wk r) (wv r) sr er -> length sr + length mid <= M ->
  (forall j, j < length mid -> fd (lo + j) = S (length pre) + j) ->
  (forall j, j < length mid -> fw (lo + j) = length P + j) ->
  exists us r', for_up lo (length mid) F r = Ok r' /\ ws r' = P ++ map Some us ++ Q /\ length us = length mid /\
    store M (wb r') (wk r') (wv r') (sr ++ us) (er ++ emid).
Proof.
  intros HF. induction mid as [|p mid IH]; intros pre emid epre R2 lo r P D Q sr er n2 E2 S2 LP LD Er Sr LM Hd Hw.
  - exists [], r. assert (emid = []) as ->.
    { apply store_len in S2. rewrite !app_length in S2. cbn [length] in S2. destruct emid; auto. cbn [length] in S2. lia. }
    destruct D; [|discriminate]. rewrite !app_nil_r. auto.
  - destruct emid as [|e emid].
    { apply store_len in S2. rewrite !app_length in S2. cbn [length] in S2. lia. }
    destruct D as [|d D]; [discriminate|]. cbn [length for_up]. rewrite HF. unfold w_entry.
    rewrite E2. rewrite (@slot_at n2 pre p mid R2 (fd lo)).
    2:{ replace lo with (lo + 0) by lia. rewrite Hd by (cbn [length]; lia). lia. }
    destruct (store_mid LP S2) as [Ek Ev]. cbn [bind]. rewrite Ek. cbn [bind]. rewrite Ev. cbn [bind fst snd].
    cbn [length] in LM, LD.
    destruct (@w_take_ok r P d (D ++ Q) (fw lo) (fst e) (snd e) sr er) as (u & r1 & Et & E1 & S1); auto.
    { replace lo with (lo + 0) by lia. rewrite Hw by (cbn [length]; lia). lia. }
    { lia. }
    rewrite Et. cbn [bind].
    destruct (IH (pre ++ [p]) emid (epre ++ [e]) R2 (S lo) r1 (P ++ [Some u]) D Q (sr ++ [u]) (er ++ [(fst e, snd e)]) n2)
      as (us & r' & EF & E' & LU & S'); auto.
    + now rewrite <- app_assoc.
    + now rewrite <- !app_assoc.
    + rewrite !app_length. cbn [length]. lia.
    + rewrite <- app_assoc. exact E1.
    + rewrite app_length. cbn [length]. lia.
    + intros j Hj. replace (S lo + j) with (lo + S j) by lia. rewrite Hd by (cbn [length]; lia).
      rewrite app_length. cbn [length]. lia.
    + intros j Hj. replace (S lo + j) with (lo + S j) by lia. rewrite Hw by (cbn [length]; lia).
      rewrite app_length. cbn [length]. lia.
    + exists (u :: us), r'. rewrite <- surjective_pairing in S'. rewrite <- (app_assoc er), <- (app_assoc sr) in S'. rewrite <- app_assoc in E'.
      splits; auto. cbn [length]. lia.
Qed.

(** mergeLeafNodes: the merged node holds both contents. *)
Lemma w_merge_ok (l1 l2 : leaf) e1 e2 : wrep M l1 e1 -> wrep M l2 e2 -> length e1 + length e2 <= M ->
  (forall x y, In x (keys e1) -> In y (keys e2) -> (x < y)%Z) ->
  exists l, w_merge M l1 l2 = Ok l /\ wrep M l (e1 ++ e2).
Proof.
  intros H1 H2 HL HO. unfold w_merge. rewrite (w_count_ok H1), (w_count_ok H2). cbn [bind].
  destruct H1 as (s1 & R1 & E1 & L1 & S1 & O1). destruct H2 as (s2 & R2 & E2 & L2 & S2 & O2).
  pose proof (store_len S1) as N1. pose proof (store_len S2) as N2.
  assert (exists D Q, R1 = D ++ Q /\ length D = length s2) as (D & Q & -> & LD).
  { apply split_at. rewrite E1 in L1. cbn [length] in L1. rewrite app_length, map_length in L1. lia. }
  destruct (@merge_loop l2 (fun i => i) (fun i => length e1 + i)
             (fun i s => do e <- w_entry l2 i; w_take M s (length e1 + i) (snd (fst e)) (snd e))
             (fun _ _ => eq_refl) s2 [] e2 [] R2 1 l1
             (Some (length e1) :: map Some s1) D Q s1 e1 (length e2)) as (us & r & EF & Er & LU & Sr); auto.
  - lia.
  - intros j Hj. cbn [length]. rewrite map_length. lia.
  - rewrite <- N2, EF. cbn [bind]. rewrite Er. cbn [app aset lset of_opt bind]. eexists. split; [reflexivity|].
    exists (s1 ++ us), Q. cbn [ws wb wk wv]. splits; auto.
    + rewrite map_app, <- app_assoc, app_length, N2. reflexivity.
    + rewrite E1 in L1. cbn [length] in *. rewrite !app_length, !map_length in *. lia.
    + apply sorted_app. auto.
Qed.

(** The copying loop of balanceLeafNodes. *)
Lemma balance_loop (d : leaf) (fd fw : nat -> nat) F : 
  (forall i st, F i st = do e <- w_entry d (fd i);
                         do r' <- w_take M (fst st) (fw i) (snd (fst e)) (snd e);
                         do b <- bm_reset M (snd st) (fst (fst e)); Ok (r', b)) ->
  forall mid pre post mid0 emid epre epost emid0 Rd lo (r : leaf) P D Q sr er db nd,
  ws d = Some nd :: map Some (pre ++ mid0 ++ mid ++ post) ++ Rd ->
  store M (wb d) (wk d) (wv d) (pre ++ mid0 ++ mid ++ post) (epre ++ emid0 ++ emid ++ epost) ->
  length pre = length epre -> length mid0 = length emid0 -> length mid = length emid ->
  store M db (wk d) (wv d) (pre ++ mid ++ post) (epre ++ emid ++ epost) ->
  length D = length mid -> ws r = P ++ D ++ Q -> store M (wb r) (wk r) (wv r) sr er -> length sr + length mid <= M ->
  (forall j, j < length mid -> fd (lo + j) = S (length pre + length mid0) + j) ->
  (forall j, j < length mid -> fw (lo + j) = length P + j) ->
  exists us r' db', for_up lo (length mid) F (r, db) = Ok (r', db') /\ ws r' = P ++ map Some us ++ Q /\ length us = length mid /\
    store M (wb r') (wk r') (wv r') (sr ++ us) (er ++ emid) /\
    store M db' (wk d) (wv d) (pre ++ post) (epre ++ epost).
Proof.
  intros HF. induction mid as [|p mid IH];
    intros pre post mid0 emid epre epost emid0 Rd lo r P D Q sr er db nd Ed Sd LP L0 LE Sb LD Er Sr LM Hd Hw.
  - exists [], r, db. destruct emid; [|discriminate]. destruct D; [|discriminate]. rewrite !app_nil_r. splits; auto.
  - destruct emid as [|e emid]; [discriminate|]. destruct D as [|x D]; [discriminate|]. cbn [length for_up].
    rewrite HF. unfold w_entry. rewrite Ed.
    replace (pre ++ mid0 ++ (p :: mid) ++ post) with ((pre ++ mid0) ++ p :: (mid ++ post)) by now rewrite <- !app_assoc.
    rewrite slot_at.
    2:{ replace lo with (lo + 0) by lia. rewrite Hd by (cbn [length]; lia). rewrite app_length. lia. }
    destruct (@store_mid (wb d) (wk d) (wv d) (pre ++ mid0) p (mid ++ post) (epre ++ emid0) e (emid ++ epost)) as [Ek Ev].
    { rewrite !app_length. lia. }
    { rewrite <- !app_assoc. exact Sd. }
    cbn [bind]. rewrite Ek. cbn [bind]. rewrite Ev. cbn [bind fst snd]. cbn [length] in LM, LD, LE.
    destruct (@w_take_ok r P x (D ++ Q) (fw lo) (fst e) (snd e) sr er) as (u & r1 & Et & E1 & S1); auto.
    { replace lo with (lo + 0) by lia. rewrite Hw by (cbn [length]; lia). lia. }
    { lia. }
    rewrite Et. cbn [bind].
    destruct (@store_free _ _ _ _ _ pre p (mid ++ post) epre e (emid ++ epost) LP Sb) as (db1 & Eb & Sb1).
    rewrite Eb. cbn [bind].
    destruct (IH pre post (mid0 ++ [p]) emid epre epost (emid0 ++ [e]) Rd (S lo) r1 (P ++ [Some u]) D Q (sr ++ [u])
                (er ++ [(fst e, snd e)]) db1 nd) as (us & r' & db' & EF & E' & LU & S' & Sd'); auto.
    + rewrite <- !app_assoc. exact Ed.
    + rewrite <- !app_assoc. exact Sd.
    + rewrite !app_length. cbn [length]. lia.
    + rewrite <- app_assoc. exact E1.
    + rewrite app_length. cbn [length]. lia.
    + intros j Hj. replace (S lo + j) with (lo + S j) by lia. rewrite Hd by (cbn [length]; lia).
      rewrite app_length. cbn [length]. lia.
    + intros j Hj. replace (S lo + j) with (lo + S j) by lia. rewrite Hw by (cbn [length]; lia).
      rewrite app_length. cbn [length]. lia.
    + exists (u :: us), r', db'. rewrite <- surjective_pairing in S'. rewrite <- (app_assoc er), <- (app_assoc sr) in S'. rewrite <- app_assoc in E'.
      splits; auto. cbn [length]. lia.
Qed.

(** balanceLeafNodes, donor on the left: the tail of the donor moves to the front of the receiver. *)
Lemma w_balance_left (d r : leaf) ea eb er : wrep M d (ea ++ eb) -> wrep M r er -> er <> [] ->
  length er < length (ea ++ eb) -> length ea = (length (ea ++ eb) + length er) / 2 ->
  (forall x y, In x (keys (ea ++ eb)) -> In y (keys er) -> (x < y)%Z) ->
  exists d' r', w_balance M d r = Ok (d', r') /\ wrep M d' ea /\ wrep M r' (eb ++ er).
Proof.
  intros Hd Hr NE HL HB HO. unfold w_balance. rewrite (w_count_ok Hd), (w_count_ok Hr). cbn [bind].
  rewrite <- HB. rewrite app_length in *.
  destruct (Nat.ltb_spec (length ea + length eb) (length ea)); [lia|].
  replace (length ea + length eb - length ea) with (length eb) by lia.
  destruct (Nat.eqb_spec (length eb) 0) as [Z0|NZ].
  { exists d, r. destruct eb; [|discriminate Z0]. rewrite app_nil_r in Hd. auto. }
  destruct (ea ++ eb) as [|e0 es0] eqn:E0.
  { apply (f_equal (@length _)) in E0. rewrite app_length in E0. cbn [length] in E0. lia. }
  destruct (@w_entry_ok V M d [] e0 es0 Hd) as (p0 & F1 & F2 & F3). unfold w_entry at 1. cbn [length] in F1.
  rewrite F1. cbn [bind]. rewrite F2. cbn [bind]. rewrite F3. cbn [bind fst snd].
  destruct er as [|r0 er0] eqn:E1; [congruence|]. rewrite <- E1 in *.
  assert (Hr' : wrep M r (r0 :: er0)) by now rewrite <- E1.
  destruct (@w_entry_ok V M r [] r0 er0 Hr') as (q0 & G1 & G2 & _). cbn [length] in G1.
  rewrite G1. cbn [bind]. rewrite G2. cbn [bind].
  assert (LT : (fst e0 < fst r0)%Z).
  { apply HO; [now left|rewrite E1; now left]. }
  destruct (Z.ltb_spec (fst e0) (fst r0)); [|lia].
  rewrite <- E0 in *. clear F1 F2 F3 G1 G2 Hr' LT.
  pose proof (wrep_len Hd) as LMd. rewrite app_length in LMd.
  destruct Hd as (sd & Rd & Ed & Ld & Sd & Od). destruct Hr as (sr & Rr & Er & Lr & Sr & Or).
  pose proof (store_len Sd) as Nd. pose proof (store_len Sr) as Nr. rewrite app_length in Nd.
  destruct (@split_at _ sd (length ea)) as (sa & sb & -> & La); [lia|]. rewrite app_length in Nd.
  destruct (@split_at _ Rr (length eb)) as (G & R' & -> & LG).
  { rewrite Er in Lr. cbn [length] in Lr. rewrite app_length, map_length in Lr. lia. }
  destruct (@move_up nat (fun i s => do x <- cget s i; cset s (i + length eb) x) (length eb) (fun _ _ => eq_refl)
              (map Some sr) [Some (length er)] G R' (length er) (length er)) as (D & ED & LD); auto.
  { cbn [length]. rewrite map_length. lia. }
  { now rewrite map_length. }
  rewrite Er. cbn [app] in ED. rewrite ED. cbn [bind].
  destruct (@balance_loop d (fun j => length ea + 1 + j) (fun j => 1 + j)
              (fun j st => do e <- w_entry d (length ea + 1 + j);
                           do r' <- w_take M (fst st) (1 + j) (snd (fst e)) (snd e);
                           do b <- bm_reset M (snd st) (fst (fst e)); Ok (r', b)) (fun _ _ => eq_refl)
              sb sa [] [] eb ea [] [] Rd 0
              (WLeaf (Some (length er) :: D ++ map Some sr ++ R') (wb r) (wk r) (wv r))
              [Some (length er)] D (map Some sr ++ R') sr er (wb d) (length (ea ++ eb)))
    as (us & r' & db' & EF & E' & LU & S' & Sd'); rewrite ?app_nil_r; auto.
  { lia. }
  { lia. }
  { lia. }
  { intros j Hj. cbn [length]. lia. }
  replace (length sb) with (length eb) in EF by lia. rewrite EF. cbn [bind].
  rewrite Ed. cbn [aset lset of_opt bind]. rewrite E'. cbn [app aset lset of_opt bind].
  rewrite !app_nil_r in Sd'.
  eexists _, _. split; [reflexivity|]. split.
  - exists sa, (map Some sb ++ Rd). cbn [ws wb wk wv]. splits; auto.
    + rewrite map_app, <- app_assoc. do 2 f_equal. lia.
    + rewrite Ed in Ld. exact Ld.
    + apply sorted_app in Od. tauto.
  - exists (us ++ sr), R'. cbn [ws wb wk wv]. splits; auto.
    + rewrite map_app, <- app_assoc, app_length. do 2 f_equal. lia.
    + rewrite Er in Lr. cbn [length] in *. rewrite ?app_length, ?map_length in *. lia.
    + now apply store_comm.
    + apply sorted_app. apply sorted_app in Od. splits; try tauto. intros x y Hx Hy. apply HO; auto.
      rewrite keys_app, in_app_iff. auto.
Qed.

(** balanceLeafNodes, donor on the right: the front of the donor moves to the end of the receiver. *)
Lemma w_balance_right (d r : leaf) ea eb er : wrep M d (ea ++ eb) -> wrep M r er -> er <> [] ->
  length er < length (ea ++ eb) -> length eb = (length (ea ++ eb) + length er) / 2 ->
  (forall x y, In x (keys er) -> In y (keys (ea ++ eb)) -> (x < y)%Z) ->
  exists d' r', w_balance M d r = Ok (d', r') /\ wrep M d' eb /\ wrep M r' (er ++ ea).
Proof.
  intros Hd Hr NE HL HB HO. unfold w_balance. rewrite (w_count_ok Hd), (w_count_ok Hr). cbn [bind].
  rewrite <- HB. rewrite app_length in *.
  destruct (Nat.ltb_spec (length ea + length eb) (length eb)); [lia|].
  replace (length ea + length eb - length eb) with (length ea) by lia.
  destruct (Nat.eqb_spec (length ea) 0) as [Z0|NZ].
  { exists d, r. destruct ea; [|discriminate Z0]. rewrite app_nil_r. auto. }
  destruct (ea ++ eb) as [|e0 es0] eqn:E0.
  { apply (f_equal (@length _)) in E0. rewrite app_length in E0. cbn [length] in E0. lia. }
  destruct (@w_entry_ok V M d [] e0 es0 Hd) as (p0 & F1 & F2 & F3). unfold w_entry at 1. cbn [length] in F1.
  rewrite F1. cbn [bind]. rewrite F2. cbn [bind]. rewrite F3. cbn [bind fst snd].
  destruct er as [|r0 er0] eqn:E1; [congruence|]. rewrite <- E1 in *.
  assert (Hr' : wrep M r (r0 :: er0)) by now rewrite <- E1.
  destruct (@w_entry_ok V M r [] r0 er0 Hr') as (q0 & G1 & G2 & _). cbn [length] in G1.
  rewrite G1. cbn [bind]. rewrite G2. cbn [bind].
  assert (LT : (fst r0 < fst e0)%Z).
  { apply HO; [rewrite E1; now left|now left]. }
  destruct (Z.ltb_spec (fst e0) (fst r0)); [lia|].
  rewrite <- E0 in *. clear F1 F2 F3 G1 G2 Hr' LT.
  pose proof (wrep_len Hd) as LMd. rewrite app_length in LMd.
  destruct Hd as (sd & Rd & Ed & Ld & Sd & Od). destruct Hr as (sr & Rr & Er & Lr & Sr & Or).
  pose proof (store_len Sd) as Nd. pose proof (store_len Sr) as Nr. rewrite app_length in Nd.
  destruct (@split_at _ sd (length ea)) as (sa & sb & -> & La); [lia|]. rewrite app_length in Nd.
  destruct (@split_at _ Rr (length ea)) as (D & R' & -> & LG).
  { rewrite Er in Lr. cbn [length] in Lr. rewrite app_length, map_length in Lr. lia. }
  destruct (@balance_loop d (fun i => i) (fun i => length er + i)
              (fun i st => do e <- w_entry d i;
                           do r' <- w_take M (fst st) (length er + i) (snd (fst e)) (snd e);
                           do b <- bm_reset M (snd st) (fst (fst e)); Ok (r', b)) (fun _ _ => eq_refl)
              sa [] sb [] ea [] eb [] Rd 1 r
              (Some (length er) :: map Some sr) D R' sr er (wb d) (length (ea ++ eb)))
    as (us & r' & db' & EF & E' & LU & S' & Sd'); auto.
  { lia. }
  { lia. }
  { intros j Hj. cbn [length]. rewrite map_length. lia. }
  replace (length sa) with (length ea) in EF by lia. rewrite EF. cbn [bind]. cbn [app] in Sd'.
  destruct (@move_down nat (fun i s => do x <- cget s (length ea + i); cset s i x) (length ea) (fun _ _ => eq_refl)
              (map Some sb) [Some (length (ea ++ eb))] (map Some sa) Rd 1 (length eb)) as (T & ET & LT).
  { now rewrite map_length. }
  { reflexivity. }
  { rewrite map_length. lia. }
  rewrite Ed, map_app, <- app_assoc. cbn [app] in ET. rewrite ET. cbn [bind aset lset of_opt].
  rewrite E'. cbn [app aset lset of_opt bind].
  eexists _, _. split; [reflexivity|]. split.
  - exists sb, T. cbn [ws wb wk wv]. splits; auto.
    + do 2 f_equal. lia.
    + rewrite Ed in Ld. cbn [length] in *. rewrite ?app_length, ?map_length, ?app_length in *. lia.
    + apply sorted_app in Od. tauto.
  - exists (sr ++ us), R'. cbn [ws wb wk wv]. splits; auto.
    + rewrite map_app, <- app_assoc, app_length. reflexivity.
    + rewrite Er in Lr. cbn [length] in *. rewrite ?app_length, ?map_length in *. lia.
    + apply sorted_app. apply sorted_app in Od. splits; try tauto. intros x y Hx Hy. apply HO; auto.
      rewrite keys_app, in_app_iff. auto.
Qed.

(** ** Split *)
Lemma split_loop (l : leaf) ns middle F :
  (forall i (s : leaf), F i s =
     do s1 <- aset (ws s) i (i - 1);
     do b <- bm_set M (wb s) (i - 1) true;
     do p <- aget ns (i + middle);
     do k <- aget (wk l) p;
     do ks <- aset (wk s) (i - 1) k;
     do v <- aget (wv l) p;
     do vs <- aset (wv s) (i - 1) v;
     Ok (WLeaf s1 b ks vs)) ->
  forall mid pre emid epre R2 j (r : leaf) n2 n3 Q er,
  ns = Some n2 :: map Some (pre ++ mid) ++ R2 -> store M (wb l) (wk l) (wv l) (pre ++ mid) (epre ++ emid) ->
  length pre = length epre -> length pre = middle + j -> j + length mid < M ->
  ws r = Some n3 :: map Some (seq 0 j) ++ Q -> length mid <= length Q ->
  store M (wb r) (wk r) (wv r) (seq 0 j) er ->
  exists r' Q', for_up (S j) (length mid) F r = Ok r' /\ ws r' = Some n3 :: map Some (seq 0 (j + length mid)) ++ Q' /\
    length (ws r') = length (ws r) /\
    store M (wb r') (wk r') (wv r') (seq 0 (j + length mid)) (er ++ emid).
Proof.
  intros HF. induction mid as [|p mid IH]; intros pre emid epre R2 j r n2 n3 Q er E2 S2 LP LJ LM Er LQ Sr.
  - assert (emid = []) as ->.
    { apply store_len in S2. rewrite !app_length in S2. cbn [length] in S2. destruct emid; auto. cbn [length] in S2. lia. }
    exists r, Q. rewrite Nat.add_0_r, app_nil_r. auto.
  - destruct emid as [|e emid].
    { apply store_len in S2. rewrite !app_length in S2. cbn [length] in S2. lia. }
    destruct Q as [|q Q]; [simpl in LQ; lia|]. cbn [length for_up] in *. rewrite HF.
    replace (S j - 1) with j by lia.
    rewrite Er. change (Some n3 :: map Some (seq 0 j) ++ q :: Q) with ((Some n3 :: map Some (seq 0 j)) ++ q :: Q).
    rewrite aset_app by (cbn [length]; rewrite map_length, seq_length; lia). cbn [bind].
    destruct (store_mid LP S2) as [Ek Ev].
    destruct (@store_put _ _ _ _ _ j (fst e) (snd e) Sr) as (b' & k' & v' & Ek' & Ev' & Eb & Sr'); [lia| |].
    { rewrite in_seq. lia. }
    rewrite Eb. cbn [bind]. rewrite E2. rewrite slot_at by lia. cbn [bind]. rewrite Ek. cbn [bind].
    rewrite Ek'. cbn [bind]. rewrite Ev. cbn [bind]. rewrite Ev'. cbn [bind].
    apply store_snoc in Sr'. rewrite <- surjective_pairing in Sr'.
    replace (seq 0 j ++ [j]) with (seq 0 (S j)) in Sr' by (rewrite seq_S; reflexivity).
    destruct (IH (pre ++ [p]) emid (epre ++ [e]) R2 (S j)
                (WLeaf ((Some n3 :: map Some (seq 0 j)) ++ Some j :: Q) b' k' v') n2 n3 Q (er ++ [e])) as (r' & Q' & EF & E' & L' & S');
      cbn [ws wb wk wv]; auto.
    + now rewrite <- app_assoc.
    + now rewrite <- !app_assoc.
    + rewrite !app_length. cbn [length]. lia.
    + rewrite app_length. cbn [length]. lia.
    + lia.
    + rewrite seq_S. cbn [app]. rewrite map_app, <- app_assoc. reflexivity.
    + lia.
    + exists r', Q'. rewrite <- app_assoc in S'. replace (j + S (length mid)) with (S j + length mid) by lia.
      splits; auto. cbn [ws length app] in L'. rewrite L'. cbn [length]. rewrite !app_length. reflexivity.
Qed.

Lemma reset_loop (k : arr Z) (v : arr V) ns : forall mid pre mid0 emid epre R2 lo b n2,
  ns = Some n2 :: map Some (pre ++ mid0 ++ mid) ++ R2 -> store M b k v (pre ++ mid) (epre ++ emid) ->
  length pre = length epre -> lo = length pre + length mid0 ->
  exists b', for_up lo (length mid) (fun i b => do p <- aget ns (i + 1); bm_reset M b p) b = Ok b' /\
    store M b' k v pre epre.
Proof.
  induction mid as [|p mid IH]; intros pre mid0 emid epre R2 lo b n2 E2 S2 LP Lo.
  - exists b. assert (emid = []) as ->.
    { apply store_len in S2. rewrite !app_length in S2. cbn [length] in S2. destruct emid; auto. cbn [length] in S2. lia. }
    rewrite !app_nil_r in S2. auto.
  - destruct emid as [|e emid].
    { apply store_len in S2. rewrite !app_length in S2. cbn [length] in S2. lia. }
    cbn [length for_up]. rewrite E2. replace (pre ++ mid0 ++ p :: mid) with ((pre ++ mid0) ++ p :: mid) by now rewrite <- app_assoc.
    rewrite slot_at by (rewrite app_length; lia). cbn [bind].
    destruct (store_free LP S2) as (b1 & Eb & Sb). rewrite Eb. cbn [bind].
    replace ((pre ++ mid0) ++ p :: mid) with (pre ++ (mid0 ++ [p]) ++ mid) by now rewrite <- !app_assoc.
    destruct (IH pre (mid0 ++ [p]) emid epre R2 (S lo) b1 n2) as (b' & EF & S'); auto.
    + rewrite E2, <- !app_assoc. reflexivity.
    + rewrite app_length. cbn [length]. lia.
    + exists b'. split; auto. rewrite E2 in EF. rewrite <- !app_assoc in *. exact EF.
Qed.

Lemma w_split_ok (l : leaf) ea eb : wrep M l (ea ++ eb) -> length (ea ++ eb) = M -> 2 <= M ->
  length ea = (M + 1) / 2 ->
  exists l1 l2, w_split M l = Ok (l1, l2) /\ wrep M l1 ea /\ wrep M l2 eb.
Proof.
  intros H LM M2 La. unfold w_split. rewrite (w_count_ok H), LM. cbn [bind].
  set (middle := (M + 1) / 2) in *. rewrite app_length in LM.
  assert (Hm : middle <= M) by (unfold middle; lia).
  destruct (Nat.ltb_spec M middle); [lia|].
  destruct H as (sl & R & Es & EL & HS & HO). pose proof (store_len HS) as LS. rewrite app_length in LS.
  destruct (@split_at _ sl (length ea)) as (s1 & s2 & -> & L1); [lia|]. rewrite app_length in LS.
  unfold w_new at 1. cbn [ws aset lset of_opt bind]. rewrite Es. cbn [aset lset of_opt bind].
  match goal with |- context [for_up 1 (M - middle) ?f ?s] =>
    destruct (@split_loop l (Some middle :: map Some (s1 ++ s2) ++ R) middle f (fun _ _ => eq_refl)
      s2 s1 eb ea R 0 s middle (M - middle) (anew M) []) as (r' & Q' & EF & E' & L' & S') end; auto.
  { lia. }
  { lia. }
  { unfold anew. rewrite repeat_length. lia. }
  { unfold w_new. cbn [ws wb wk wv]. unfold store. splits; auto.
    + apply bm_new_ok.
    + apply repeat_length.
    + apply repeat_length.
    + constructor.
    + intros i. rewrite bit_new. split; [discriminate|intros []].
    + constructor. }
  replace (length s2) with (M - middle) in EF by lia. rewrite EF. cbn [bind].
  destruct (@reset_loop (wk l) (wv l) (Some middle :: map Some (s1 ++ s2) ++ R) s2 s1 [] eb ea R middle (wb l) middle)
    as (b' & EB & SB); auto.
  { cbn [length]. lia. }
  replace (length s2) with (M - middle) in EB by lia. rewrite EB. cbn [bind].
  destruct eb as [|e eb]; [cbn [length] in LM; unfold middle in La; lia|]. cbn [length] in LM, LS.
  cbn [Nat.add app] in S', E'. destruct (length s2) as [|n2] eqn:N2; [lia|].
  cbn [seq map app] in S', E'. rewrite E'. cbn [aget nth_error bind].
  destruct (@store_mid _ _ _ [] 0 (seq 1 n2) [] e eb eq_refl S') as [Ek _].
  rewrite Ek. cbn [bind].
  eexists _, _. split; [reflexivity|]. apply sorted_app in HO. split.
  - exists s1, (map Some s2 ++ R). cbn [ws wb wk wv]. splits; auto; try tauto.
    + rewrite map_app, <- app_assoc. now rewrite La.
    + rewrite Es in EL. exact EL.
  - exists (0 :: seq 1 n2), Q'. splits; auto; try tauto.
    + rewrite E'. do 2 f_equal. cbn [length]. lia.
    + rewrite L'. cbn [ws length]. unfold anew. now rewrite repeat_length.
Qed.

(** insertInLeafNode on a full leaf. *)
Lemma w_insert_full (l : leaf) a b key val ea eb : wrep M l (a ++ b) -> length (a ++ b) = M -> 2 <= M ->
  alt key (keys a) -> agt key (keys b) -> a ++ b = ea ++ eb -> length ea = (M + 1) / 2 ->
  exists l1 l2 e2 r2, w_insert M l key val = Ok (LSplit l1 l2 (fst e2)) /\
    ((S (length a) < (M + 1) / 2 /\ wrep M l1 (ins key val ea) /\ wrep M l2 (e2 :: r2) /\ eb = e2 :: r2) \/
     ((M + 1) / 2 <= S (length a) /\ wrep M l1 ea /\ wrep M l2 (e2 :: r2) /\ ins key val eb = e2 :: r2)).
Proof.
  intros H LM M2 Ha Hb EE La. unfold w_insert.
  rewrite (w_pos_ok H (pos_alt_agt Ha Hb)), (w_count_ok H). cbn [bind].
  match goal with |- context [bind (if ?c then ?x else ?y) _] => assert (E : (if c then x else y) = Ok None) end.
  { destruct b as [|e b].
    + rewrite app_nil_r. destruct (Nat.leb_spec (S (length a)) (length a)); [lia|reflexivity].
    + destruct (Nat.leb_spec (S (length a)) (length (a ++ e :: b))); auto.
      destruct (w_entry_ok H) as (p & F1 & F2 & _). rewrite F1. cbn [bind]. rewrite F2. cbn [bind].
      inversion Hb; subst. destruct (Z.eqb_spec (fst e) key); [lia|reflexivity]. }
  rewrite E. cbn [bind]. rewrite LM, Nat.eqb_refl. pose proof (wrep_sorted H) as HO.
  rewrite EE in H, LM. destruct (w_split_ok H LM M2 La) as (l1 & l2 & ES & R1 & R2). rewrite ES. cbn [bind fst snd].
  rewrite app_length in LM.
  destruct (Nat.ltb_spec (S (length a)) ((M + 1) / 2)) as [LT|GE].
  - assert (exists c, ea = a ++ c) as [c ->].
    { destruct (@split_at _ ea (length a)) as (p & q & -> & Lp); [lia|]. exists q. f_equal.
      rewrite <- app_assoc in EE. apply app_inv_len in EE as [-> _]; auto. }
    assert (Hc : agt key (keys c)).
    { rewrite <- app_assoc in EE. apply app_inv_head in EE. rewrite EE in Hb. rewrite keys_app in Hb.
      unfold agt in *. rewrite Forall_app in Hb. tauto. }
    destruct (@w_insert_at_ok _ _ _ _ _ key val R1) as (l1' & EI & R1'); auto.
    { rewrite La. lia. }
    rewrite EI. cbn [bind fst snd]. destruct eb as [|e2 r2]; [cbn [length] in LM; lia|].
    destruct (@w_entry_ok _ _ l2 [] e2 r2 R2) as (p & F1 & F2 & _). cbn [length] in F1.
    rewrite F1. cbn [bind]. rewrite F2. cbn [bind].
    exists l1', l2, e2, r2. split; auto. left. splits; auto. now rewrite ins_new.
  - assert (Ob : sorted eb) by now apply wrep_sorted in R2.
    assert (exists c d, eb = c ++ d /\ alt key (keys c) /\ agt key (keys d)) as (c & d & -> & Hc & Hd).
    { destruct (locate key Ob) as [|(c & w & d & -> & Hc & Hd)]; auto. exfalso.
      assert (In key (keys (a ++ b))).
      { rewrite EE, !keys_app, !in_app_iff. right. right. now left. }
      rewrite keys_app, in_app_iff in H0. destruct H0 as [Hi|Hi].
      - rewrite alt_in in Ha. specialize (Ha _ Hi). lia.
      - rewrite agt_in in Hb. specialize (Hb _ Hi). lia. }
    rewrite (w_pos_ok R2 (pos_alt_agt Hc Hd)). cbn [bind].
    destruct (@w_insert_at_ok _ _ _ _ _ key val R2) as (l2' & EI & R2'); auto.
    { lia. }
    rewrite EI. cbn [bind fst snd]. rewrite (ins_new val Hc Hd).
    destruct (c ++ (key, val) :: d) as [|e2 r2] eqn:E2; [destruct c; discriminate|].
    destruct (@w_entry_ok _ _ l2' [] e2 r2 R2') as (p & F1 & F2 & _). cbn [length] in F1.
    rewrite F1. cbn [bind]. rewrite F2. cbn [bind].
    exists l1, l2', e2, r2. split; auto. 
Qed.
End Move.
