(** recover() of wHBPTree: a step-by-step comparison with the recovery of FPTree (RecoverProofs), whose
    branch nodes are sorted.  The rebuilt nodes correspond, except that the child of a node with a single
    child is at position 0 instead of N. *)
From Verif Require Import Base ArrLemmas MapSpec SortedList SearchModel SearchProofs RankModel RankProofs BitmapModel BitmapProofs BTreeModel BTreeLaws BTreeBranch
  BTreeGhost BTreeInsert BTreeSpec BTreeMain BitTreeModel InsSpec XTree FLeafProofs BitProofs RecoverModel RecoverProofs RecSpec
  WbModel WbProofs WbMove WbMain WbBranch WbTree WbEModel WhModel.
Open Scope nat_scope.

Lemma nth_error_seq_inv n : forall a i x, nth_error (seq a n) i = Some x -> x = a + i /\ i < n.
Proof.
  induction n as [|n IH]; intros a i x H; [destruct i; discriminate|]. destruct i as [|i]; cbn [seq nth_error] in H.
  - injection H as <-. lia.
  - apply IH in H. lia.
Qed.
Lemma F2_nth {A B} (R : A -> B -> Prop) : forall a b, length a = length b ->
  (forall i x y, nth_error a i = Some x -> nth_error b i = Some y -> R x y) -> Forall2 R a b.
Proof.
  induction a as [|x a IH]; intros [|y b] HL H; cbn [length] in HL; try lia; constructor.
  - apply (H 0); reflexivity.
  - apply IH; [lia|]. intros i. apply (H (S i)).
Qed.

Section Rec.
Variables (V : Type) (N M : nat).
Hypothesis HN : 2 <= N.
Notation leaf := (wleaf V).
Notation O := (wh_ops V M).
Notation rep := (wrep (V := V) M).
Notation minL := 1.
Lemma HL : 1 <= minL. Proof. lia. Qed.
Lemma MK (l : leaf) es x (v : V) : rep l ((x, v) :: es) -> lo_minkey O l = Ok x.
Proof.
  intros (sl & R & Es & EL & HS & HO). cbn [wh_ops lo_minkey]. unfold wh_minkey. rewrite Es.
  destruct HS as (_ & _ & _ & _ & _ & F). destruct sl as [|p sl]; [inversion F|]. cbn [map app aget nth_error bind].
  inversion F as [|? ? ? ? [H _] F']; subst. exact H.
Qed.
Notation hp := (heap leaf).
Notation bmap := (nat -> option wbranch).
Notation gt := (gt V).
Notation wf := (wf N M minL 0).
Implicit Types (g : gt) (CA : list gt).

(** The same node with slots and bitmap; the last child is at N. *)
Definition nrel (br : branch) (b : wbranch) : Prop :=
  bn br <= N /\ length (bk br) = N /\ length (bc br) = S N /\ length (wbk b) = N /\ length (wbc b) = S N /\ length (bs b) = S N /\
  bm_ok N (bb b) /\ (forall i, bit (bb b) i = (i <? bn br)) /\
  aget (bs b) 0 = Ok (bn br) /\ (forall i, i < bn br -> aget (bs b) (S i) = Ok i) /\
  (forall i, bn br <= i -> aget (bs b) (S i) = UB \/ (i = 0 /\ aget (bs b) (S i) = Ok 0)) /\
  (forall i, i < bn br -> nth_error (wbk b) i = nth_error (bk br) i) /\
  (forall i, i < bn br \/ i = 0 -> nth_error (wbc b) i = nth_error (bc br) i) /\
  (bn br = 0 -> nth_error (wbc b) N = Some None) /\
  (0 < bn br -> nth_error (wbc b) N = nth_error (bc br) (bn br)) /\
  exists c, aget (bc br) (bn br) = Ok c.

Definition orel (x : option branch) (y : option wbranch) : Prop :=
  match x, y with Some br, Some b => nrel br b | None, None => True | _, _ => False end.
Definition hrel (hx h : hp) (B : bmap) : Prop :=
  hl h = hl hx /\ hnx h = hnx hx /\ hpv h = hpv hx /\ hfresh h = hfresh hx /\ forall i, orel (hb hx i) (B i).

Lemma nrel_count br b : nrel br b -> aget (bs b) 0 = Ok (bn br).
Proof. intros (_ & _ & _ & _ & _ & _ & _ & _ & H & _). exact H. Qed.

Lemma append_rel br b key c ks cs : nrel br b -> bn br <> N -> aset (bk br) (bn br) key = Ok ks -> aset (bc br) (S (bn br)) c = Ok cs ->
  exists b', wh_append N b key c = Ok b' /\ nrel (Branch (S (bn br)) ks cs) b'.
Proof.
  intros R HNE E1 E2. destruct R as (Hn & L1 & L2 & L3 & L4 & L5 & HB & Hbit & HC & HS & HU & HK & HCh & H0 & Hl & (c0 & Hc0)).
  unfold wh_append. rewrite HC. cbn [bind].
  destruct (@bm_set_ok N (bb b) (bn br) true HB) as (b1 & Eb & HB1 & Hbit1); [lia|]. rewrite Eb. cbn [bind].
  destruct (@aset_ok _ (wbk b) (bn br) key) as (ks' & F1); [lia|]. rewrite F1. cbn [bind].
  apply aget_nth in Hc0.
  assert (exists c1, (if 0 <? bn br then do l <- cget (wbc b) N; cset (wbc b) (bn br) l else Ok (wbc b)) = Ok c1 /\ length c1 = S N /\
    forall i, i <= bn br -> nth_error c1 i = nth_error (bc br) i) as (c1 & -> & Lc1 & Hc1).
  { destruct (Nat.ltb_spec 0 (bn br)) as [Hp|Hz].
    - unfold cget. rewrite Hl by auto. rewrite Hc0. cbn [of_opt bind].
      destruct (@aset_ok _ (wbc b) (bn br) c0) as (c1 & F2); [lia|]. exists c1. splits; auto.
      + now rewrite (aset_length F2).
      + intros i Hi. rewrite (aset_nth i F2). destruct (Nat.eqb_spec i (bn br)) as [->|]; [congruence|]. apply HCh. lia.
    - exists (wbc b). splits; auto. intros i Hi. apply HCh. lia. }
  cbn [bind]. destruct (@aset_ok _ c1 N c) as (c2 & F3); [lia|]. rewrite F3. cbn [bind].
  destruct (@aset_ok _ (bs b) (bn br + 1) (bn br)) as (s1 & F4); [lia|]. rewrite F4. cbn [bind].
  pose proof (aset_length F4) as L6.
  destruct (@aset_ok _ s1 0 (S (bn br))) as (s2 & F5); [lia|]. rewrite F5. cbn [bind].
  eexists. split; [reflexivity|]. unfold nrel. cbn [bn bk bc bb bs wbk wbc].
  rewrite (aset_length E1), (aset_length E2), (aset_length F1), (aset_length F3), (aset_length F5), L6. splits; auto; try lia.
  - intros i. rewrite Hbit1, Hbit. destruct (Nat.eqb_spec i (bn br)), (Nat.ltb_spec i (bn br)), (Nat.ltb_spec i (S (bn br))); lia || auto.
  - rewrite (aget_aset 0 F5). reflexivity.
  - intros i Hi. rewrite (aget_aset (S i) F5). change (S i =? 0) with false. cbv iota. rewrite (aget_aset (S i) F4). destruct (Nat.eqb_spec (S i) (bn br + 1)) as [Ei|Ei].
    + f_equal. lia.
    + apply HS. lia.
  - intros i Hi. rewrite (aget_aset (S i) F5). change (S i =? 0) with false. cbv iota. rewrite (aget_aset (S i) F4). destruct (Nat.eqb_spec (S i) (bn br + 1)) as [Ei|Ei]; [lia|].
    destruct (HU i) as [|[Z0 Z1]]; auto; lia.
  - intros i Hi. rewrite (aset_nth i F1), (aset_nth i E1). destruct (Nat.eqb_spec i (bn br)); auto. apply HK. lia.
  - intros i Hi. rewrite (aset_nth i F3), (aset_nth i E2). destruct (Nat.eqb_spec i N); [lia|]. destruct (Nat.eqb_spec i (S (bn br))); [lia|].
    apply Hc1. lia.
  - intros _. rewrite (aset_nth N F3), (aset_nth (S (bn br)) E2), !Nat.eqb_refl. reflexivity.
  - exists c. rewrite (aget_aset (S (bn br)) E2), Nat.eqb_refl. reflexivity.
Qed.

Lemma hrel_upd hx h B i br b : hrel hx h B -> nrel br b -> hrel (set_branch hx i br) h (upd B i (Some b)).
Proof.
  intros (H1 & H2 & H3 & H4 & H5) R. unfold hrel. cbn [set_branch hl hnx hpv hfresh hb]. splits; auto.
  intros j. unfold upd. destruct (j =? i); [exact R|apply H5].
Qed.

Lemma new_rel c cs s : aset (bc (empty_branch N)) 0 c = Ok cs -> length s = S N -> aget s 0 = Ok 0 ->
  (forall i, aget s (S i) = UB \/ (i = 0 /\ aget s (S i) = Ok 0)) ->
  nrel (Branch 0 (bk (empty_branch N)) cs) (WBranch s (bb (wb_new N)) (wbk (wb_new N)) cs).
Proof.
  intros E LS S0 SU. destruct (empty_brep N) as (Hn & LK & LC & _). unfold nrel. cbn [bn bk bc bb bs wbk wbc wb_new].
  rewrite (aset_length E). splits; auto; try lia.
  - apply bm_new_ok.
  - intros i. apply bit_new.
  - intros _. rewrite (aset_nth N E). destruct (Nat.eqb_spec N 0); [lia|]. cbn [empty_branch bc]. unfold anew. apply nth_error_repeat. lia.
  - exists c. rewrite (aget_aset 0 E). reflexivity.
Qed.
Lemma anew_get {A} n i : aget (@anew A n) i = UB.
Proof. unfold aget, anew. destruct (nth_error (repeat None n) i) eqn:E; auto. apply nth_error_In, repeat_spec in E. now subst. Qed.

Lemma node_rel hx h B c : hrel hx h B -> forall i hx', rec_node N hx c = Ok (i, hx') ->
  exists h' B', wh_node N h B c = Ok (i, h', B') /\ hrel hx' h' B'.
Proof.
  intros HR i hx'. unfold rec_node, wh_node. cbn [new_branch fresh]. pose proof HR as (H1 & H2 & H3 & H4 & H5).
  destruct (empty_brep N) as (Hn & LK & LC & _).
  destruct (@aset_ok _ (bc (empty_branch N)) 0 c) as (cs & E); [lia|]. rewrite E. cbn [bind]. intros [= <- <-].
  assert (LS : length (bs (wb_new N)) = S N) by (cbn [wb_new bs length]; unfold anew; now rewrite repeat_length).
  destruct (@aset_ok _ (bs (wb_new N)) 1 0) as (s & Es); [lia|]. rewrite Es. cbn [bind].
  change (wbc (wb_new N)) with (bc (empty_branch N)). rewrite E. cbn [bind]. rewrite H4. do 2 eexists. split; [reflexivity|].
  unfold hrel. cbn [set_branch hl hnx hpv hfresh hb]. splits; auto. intros j. unfold upd. destruct (j =? hfresh hx); [|apply H5].
  apply (new_rel E).
  - now rewrite (aset_length Es).
  - rewrite (aget_aset 0 Es). reflexivity.
  - intros k. rewrite (aget_aset (S k) Es). destruct k as [|k]; [right; auto|left]. apply (anew_get N (S k)).
Qed.
Lemma root_node_rel hx h B c : hrel hx h B -> forall i hx', rec_node N hx c = Ok (i, hx') ->
  exists h' B', wh_root N h B c = Ok (i, h', B') /\ hrel hx' h' B'.
Proof.
  intros HR i hx'. unfold rec_node, wh_root. cbn [new_branch fresh]. pose proof HR as (H1 & H2 & H3 & H4 & H5).
  destruct (empty_brep N) as (Hn & LK & LC & _).
  destruct (@aset_ok _ (bc (empty_branch N)) 0 c) as (cs & E); [lia|]. rewrite E. cbn [bind]. intros [= <- <-].
  change (wbc (wb_new N)) with (bc (empty_branch N)). rewrite E. cbn [bind]. rewrite H4. do 2 eexists. split; [reflexivity|].
  unfold hrel. cbn [set_branch hl hnx hpv hfresh hb]. splits; auto. intros j. unfold upd. destruct (j =? hfresh hx); [|apply H5].
  apply (new_rel E).
  - cbn [wb_new bs length]. unfold anew. now rewrite repeat_length.
  - reflexivity.
  - intros k. left. apply (anew_get N k).
Qed.

Lemma getwb_rel hx h B i br : hrel hx h B -> getb hx i = Ok br -> exists b, getwb B i = Ok b /\ nrel br b.
Proof.
  intros (_ & _ & _ & _ & H) E. unfold getb in E. specialize (H i). destruct (hb hx i) as [br'|]; [|discriminate]. injection E as <-.
  unfold getwb. destruct (B i) as [b|]; [|contradiction H]. exists b. auto.
Qed.

Lemma wh_rec_branch_1 (h : hp) (B : bmap) id lf : wh_rec_branch N h B 1 id lf =
  do b <- getwb B id;
  do n <- aget (bs b) 0;
  do l <- getl h lf; do key <- lo_minkey O l;
  if n =? N then do x <- wh_node N h B lf; let '(i, h1, B1) := x in Ok (h1, B1, Some (Split key id i))
  else do b' <- wh_append N b key lf; Ok (h, upd B id (Some b'), None).
Proof. reflexivity. Qed.
Lemma wh_rec_branch_2 (h : hp) (B : bmap) d id lf : wh_rec_branch N h B (S (S d)) id lf =
  do b <- getwb B id;
  do n <- aget (bs b) 0;
  do c <- aget (wbc b) (if n =? 0 then 0 else N);
  do r <- wh_rec_branch N h B (S d) c lf;
  match r with
  | (h1, B1, None) => Ok (h1, B1, None)
  | (h1, B1, Some si) =>
    do b1 <- getwb B1 id;
    do n1 <- aget (bs b1) 0;
    if n1 =? N then
      do x <- wh_node N h1 B1 (sright si); let '(i, h2, B2) := x in Ok (h2, B2, Some (Split (skey si) id i))
    else do b' <- wh_append N b1 (skey si) (sright si); Ok (h1, upd B1 id (Some b'), None)
  end.
Proof. reflexivity. Qed.

Lemma append_sim hx h B id br b key c hx' : hrel hx h B -> getb hx id = Ok br -> nrel br b -> bn br <> N ->
  rec_append hx id key c = Ok hx' -> exists b', wh_append N b key c = Ok b' /\ hrel hx' h (upd B id (Some b')).
Proof.
  intros HR E R NE. unfold rec_append. rewrite E. cbn [bind].
  destruct (aset (bk br) (bn br) key) as [ks| |] eqn:E1; try discriminate. cbn [bind].
  destruct (aset (bc br) (S (bn br)) c) as [cs| |] eqn:E2; try discriminate. cbn [bind]. intros [= <-].
  destruct (append_rel R NE E1 E2) as (b' & E3 & R'). exists b'. split; [exact E3|]. apply hrel_upd; auto.
Qed.

Lemma rec_branch_sim d : forall m hx g lo i l x v es h B hx' r, wf m (S d) lo None g -> binv N hx [g] -> hl hx i = Some l -> rep l ((x, v) :: es) ->
  alt x (keys (ents [g])) -> sorted ((x, v) :: es) -> minL <= S (length es) <= M -> hrel hx h B ->
  rec_branch N O false hx (S d) (gid g) i = Ok (hx', r) ->
  exists h' B', wh_rec_branch N h B (S d) (gid g) i = Ok (h', B', r) /\ hrel hx' h' B'.
Proof.
  induction d as [|d IH]; intros m hx g lo i l x v es h B hx' r W BI Hl LR AL SO LE HR E.
  - rewrite rec_branch_1 in E. rewrite wh_rec_branch_1. destruct (getb hx (gid g)) as [br| |] eqn:Eb; try discriminate E. cbn [bind] in E.
    destruct (getwb_rel HR Eb) as (b & -> & R). cbn [bind]. rewrite (nrel_count R). cbn [bind].
    unfold getl in *. destruct HR as (H1 & HR'). rewrite H1. rewrite Hl in *. cbn [of_opt bind] in *. assert (HR := conj H1 HR' : hrel hx h B).
    rewrite (MK LR) in *. cbn [bind] in *. destruct (Nat.eqb_spec (bn br) N) as [EN|EN].
    + destruct (rec_node N hx i) as [[j h2]| |] eqn:En; try discriminate E. cbn [bind fst snd] in E. injection E as <- <-.
      destruct (node_rel HR En) as (h' & B' & -> & HR2). cbn [bind]. eauto.
    + destruct (rec_append hx (gid g) x i) as [h2| |] eqn:Ea; try discriminate E. cbn [bind] in E. injection E as <- <-.
      destruct (append_sim HR Eb R EN Ea) as (b' & -> & HR2). cbn [bind]. eauto.
  - rewrite rec_branch_2 in E. rewrite wh_rec_branch_2. destruct (getb hx (gid g)) as [br| |] eqn:Eb; try discriminate E. cbn [bind] in E.
    destruct (getwb_rel HR Eb) as (b & -> & R). cbn [bind]. rewrite (nrel_count R). cbn [bind].
    destruct g as [|id ks cs]; [contradiction W|]. destruct W as [Hm K]. apply binv_GB in BI as (BC & NI & LT & br0 & Hb & BR).
    cbn [fst snd gid] in *. assert (br0 = br) by (unfold getb in Eb; rewrite Hb in Eb; now injection Eb). subst br0.
    destruct (kids_last K) as (CA & c & -> & LA & K1 & K2 & K3).
    assert (Ec : aget (bc br) (bn br) = Ok (gid c)).
    { rewrite map_app in BR. cbn [map] in BR. rewrite (proj1 BR), <- LA, <- (map_length (@gid V)).
      apply (brep_kid BR). rewrite nth_error_app2 by lia. rewrite Nat.sub_diag. reflexivity. }
    rewrite Ec in E. cbn [bind] in E.
    assert (Ec' : aget (wbc b) (if bn br =? 0 then 0 else N) = Ok (gid c)).
    { apply aget_nth. apply aget_nth in Ec. destruct R as (_ & _ & _ & _ & _ & _ & _ & _ & _ & _ & _ & _ & RC & _ & RN & _).
      destruct (Nat.eqb_spec (bn br) 0) as [E0|E0]; [|rewrite RN by lia; exact Ec]. rewrite RC by lia. rewrite E0 in Ec. exact Ec. }
    rewrite Ec'. cbn [bind]. apply binv_app in BC as (BA & Bc & BD).
    rewrite ents_GB, ents_app in AL. unfold alt in AL. rewrite keys_app in AL. apply Forall_app in AL as [AL1 AL2].
    destruct (rec_branch N O false hx (S d) (gid c) i) as [[h1 r1]| |] eqn:Er; try discriminate E. cbn [bind] in E.
    destruct (IH _ hx c _ i l x v es h B h1 r1 K3 Bc Hl LR AL2 SO LE HR Er) as (h1' & B1 & -> & HR1). cbn [bind].
    destruct (@rec_branch_ok leaf V N M O rep minL MK HN HL false d _ hx c _ i l x v es K3 Bc Hl LR AL2 SO LE) as (h1x & r1x & Erx & FR & _).
    rewrite Er in Erx. injection Erx as <- <-.
    destruct r1 as [si|].
    + assert (Eb1 : getb h1 id = Ok br).
      { unfold getb. destruct FR as (_ & _ & _ & _ & FR). rewrite FR; [now rewrite Hb|exact LT|].
        intros Hi. apply NI. rewrite bids_app. apply in_or_app. auto. }
      rewrite Eb1 in E. cbn [bind] in E. destruct (getwb_rel HR1 Eb1) as (b1 & -> & R1). cbn [bind]. rewrite (nrel_count R1). cbn [bind].
      destruct (Nat.eqb_spec (bn br) N) as [EN|EN].
      * destruct (rec_node N h1 (sright si)) as [[j h2]| |] eqn:En; try discriminate E. cbn [bind fst snd] in E. injection E as <- <-.
        destruct (node_rel HR1 En) as (h' & B' & -> & HR2). cbn [bind]. eauto.
      * destruct (rec_append h1 id (skey si) (sright si)) as [h2| |] eqn:Ea; try discriminate E. cbn [bind] in E. injection E as <- <-.
        destruct (append_sim HR1 Eb1 R1 EN Ea) as (b' & -> & HR2). cbn [bind]. eauto.
    + injection E as <- <-. eauto.
Qed.

Definition trel (tx : tree leaf) (tr : wtree V) : Prop :=
  hrel (th tx) (wth tr) (wtb tr) /\ troot tx = wroot tr /\ tdepth tx = wdepth tr.

Lemma root_rel si : forall ks cs cs', aset (bk (empty_branch N)) 0 (skey si) = Ok ks ->
  aset (bc (empty_branch N)) 0 (sleft si) = Ok cs -> aset cs 1 (sright si) = Ok cs' ->
  exists b, (do ks <- aset (wbk (wb_new N)) 0 (skey si); do cs <- aset (wbc (wb_new N)) 0 (sleft si); do cs' <- aset cs N (sright si);
    do b1 <- bm_set N (bb (wb_new N)) 0 true; do s1 <- aset (bs (wb_new N)) 0 1; do s2 <- aset s1 1 0; Ok (WBranch s2 b1 ks cs')) = Ok b /\
    nrel (Branch 1 ks cs') b.
Proof.
  intros ks cs cs' E1 E2 E3. destruct (empty_brep N) as (_ & LK & LC & _).
  change (wbk (wb_new N)) with (bk (empty_branch N)). change (wbc (wb_new N)) with (bc (empty_branch N)). rewrite E1. cbn [bind]. rewrite E2. cbn [bind].
  pose proof (aset_length E2) as L2. rewrite LC in L2.
  destruct (@aset_ok _ cs N (sright si)) as (c2 & F); [lia|]. rewrite F. cbn [bind].
  destruct (@bm_set_ok N (bb (wb_new N)) 0 true (bm_new_ok N)) as (b1 & Eb & HB1 & Hbit1); [lia|]. rewrite Eb. cbn [bind].
  assert (LS : length (bs (wb_new N)) = S N) by (cbn [wb_new bs length]; unfold anew; now rewrite repeat_length).
  destruct (@aset_ok _ (bs (wb_new N)) 0 1) as (s1 & F1); [lia|]. rewrite F1. cbn [bind]. pose proof (aset_length F1) as L3.
  destruct (@aset_ok _ s1 1 0) as (s2 & F2); [lia|]. rewrite F2. cbn [bind].
  eexists. split; [reflexivity|].
  unfold nrel. cbn [bn bk bc bb bs wbk wbc]. rewrite (aset_length E1), (aset_length E3), (aset_length F), (aset_length F2). splits; auto; try lia.
  - intros i. rewrite Hbit1. cbn [wb_new bb]. rewrite bit_new. destruct (Nat.eqb_spec i 0), (Nat.ltb_spec i 1); lia || auto.
  - rewrite (aget_aset 0 F2). change (0 =? 1) with false. cbv iota. rewrite (aget_aset 0 F1). reflexivity.
  - intros i Hi. assert (i = 0) as -> by lia. rewrite (aget_aset 1 F2). reflexivity.
  - intros i Hi. rewrite (aget_aset (S i) F2). destruct (Nat.eqb_spec (S i) 1); [lia|]. rewrite (aget_aset (S i) F1). left. apply (anew_get N i).
  - intros i Hi. rewrite (aset_nth i F), (aset_nth i E3). destruct (Nat.eqb_spec i N), (Nat.eqb_spec i 1); auto; lia.
  - intros _. rewrite (aset_nth N F), (aset_nth 1 E3), Nat.eqb_refl. reflexivity.
  - eexists. rewrite (aget_aset 1 E3). reflexivity.
Qed.

Lemma rec_insert_sim m tx tr g i l x v es tx' : trel tx tr -> rinvm N M minL m tx g -> hl (th tx) i = Some l -> rep l ((x, v) :: es) ->
  alt x (keys (ents [g])) -> sorted ((x, v) :: es) -> minL <= S (length es) <= M ->
  rec_insert N O false tx i = Ok tx' -> exists tr', wh_rec_insert N tr i = Ok tr' /\ trel tx' tr'.
Proof.
  intros (HR & E1 & E2) (Eg & (d & Ed) & W & BI) Hl LR AL SO LE E. destruct tx as [hx rx dx], tr as [h B r dp].
  cbn [th troot tdepth wth wtb wroot wdepth] in *. subst dx r dp. unfold rec_insert, wh_rec_insert in *.
  cbn [th troot tdepth wth wtb wroot wdepth] in *. rewrite <- Eg in *.
  destruct (rec_branch N O false hx (S d) (gid g) i) as [[h1 r1]| |] eqn:Er; try discriminate E. cbn [bind] in E.
  destruct (rec_branch_sim W BI Hl LR AL SO LE HR Er) as (h' & B' & -> & HR1). cbn [bind]. destruct r1 as [si|].
  - cbn [new_branch fresh] in *.
    destruct (aset (bk (empty_branch N)) 0 (skey si)) as [ks| |] eqn:F1; try discriminate E. cbn [bind] in E.
    destruct (aset (bc (empty_branch N)) 0 (sleft si)) as [cs| |] eqn:F2; try discriminate E. cbn [bind] in E.
    destruct (aset cs 1 (sright si)) as [cs'| |] eqn:F3; try discriminate E. cbn [bind] in E. injection E as <-.
    destruct (root_rel F1 F2 F3) as (b & Eb & Rb).
    destruct (aset (wbk (wb_new N)) 0 (skey si)); try discriminate Eb. cbn [bind] in Eb |- *.
    destruct (aset (wbc (wb_new N)) 0 (sleft si)) as [c1| |]; try discriminate Eb. cbn [bind] in Eb |- *.
    destruct (aset c1 N (sright si)); try discriminate Eb. cbn [bind] in Eb |- *.
    destruct (bm_set N (bb (wb_new N)) 0 true); try discriminate Eb. cbn [bind] in Eb |- *.
    destruct (aset (bs (wb_new N)) 0 1) as [s1| |]; try discriminate Eb. cbn [bind] in Eb |- *.
    destruct (aset s1 1 0); try discriminate Eb. cbn [bind] in Eb |- *. injection Eb as <-.
    destruct HR1 as (G1 & G2 & G3 & G4 & G5). eexists. split; [reflexivity|]. unfold trel. cbn [th troot tdepth wth wtb wroot wdepth].
    splits; auto. unfold hrel. cbn [set_branch hl hnx hpv hfresh hb]. splits; auto. rewrite G4. intros j. unfold upd.
    destruct (j =? hfresh h1); [exact Rb|apply G5].
  - injection E as <-. eexists. split; [reflexivity|]. unfold trel. cbn [th troot tdepth wth wtb wroot wdepth]. auto.
Qed.

Lemma rec_chain_sim m : m <= 1 -> forall ls tx tr g p fuel tx', trel tx tr -> rinvm N M minL m tx g -> Forall (lok rep (th tx)) ls -> seg (th tx) p (map fst ls) None ->
  sorted (ents [g] ++ flat_map snd ls) -> Forall (fun q => minL <= length (snd q) <= M) ls -> length ls < fuel ->
  rec_chain N O false fuel tx (hbd (map fst ls) None) = Ok tx' ->
  exists tr', wh_rec_chain N fuel tr (hbd (map fst ls) None) = Ok tr' /\ trel tx' tr'.
Proof.
  intros Hm. induction ls as [|[i es] ls IH]; intros tx tr g p fuel tx' TR R F S SO FL Hf E; cbn [map hbd hd rec_chain wh_rec_chain fst] in *.
  - destruct fuel; [lia|]. injection E as <-. exists tr. auto.
  - cbn [length] in Hf. destruct fuel as [|fuel]; [lia|]. cbn [rec_chain wh_rec_chain map hd] in *.
    apply Forall_cons_iff in F as [(l & Hl & LR) F]. apply Forall_cons_iff in FL as [LE FL]. cbn [fst snd] in *.
    cbn [map seg fst] in S. destruct S as (S1 & S2 & S3). cbn [flat_map snd] in SO.
    destruct es as [|[x v] es]; [cbn [length] in LE; lia|].
    pose proof SO as SO'. apply sorted_app in SO' as (SO1 & SO2 & SO3). apply sorted_app in SO2 as (SO4 & _ & _).
    assert (AL : alt x (keys (ents [g]))).
    { unfold alt. rewrite Forall_forall. intros y Hy. apply SO3; auto. rewrite keys_app. apply in_or_app. left. left. reflexivity. }
    destruct (@rec_insert_ok leaf V N M O rep minL MK HN HL false m tx g i l x v es Hm R Hl LR AL SO4 LE) as (t1 & g1 & E1 & R1 & LV & _ & (Q1 & Q2 & Q3 & Q4)).
    rewrite E1 in E. cbn [bind] in E. rewrite Q2, S2 in E.
    destruct (rec_insert_sim TR R Hl LR AL SO4 LE E1) as (tr1 & -> & TR1). cbn [bind].
    assert (EX : hnx (wth tr1) i = hbd (map fst ls) None).
    { destruct TR1 as ((_ & X & _) & _). now rewrite X, Q2, S2. }
    rewrite EX. eapply (IH t1 tr1 g1 (Some i) fuel); eauto.
    + eapply lok_frame; [|exact F]. now rewrite Q1.
    + eapply seg_frame; [|exact S3]. intros j _. now rewrite Q2, Q3.
    + unfold ents. rewrite LV, flat_map_app. cbn [flat_map snd]. rewrite app_nil_r, <- app_assoc. exact SO.
    + lia.
Qed.

(** ** recover() *)
Lemma crash_rel h G : hrel (crash (gh h G)) h (fun _ => None).
Proof. unfold hrel, crash, gh. cbn [hl hnx hpv hfresh hb]. splits; auto. intros i. exact I. Qed.

Lemma recover_sim f h G r d g tx : gid g = r -> wf (rmin d) d None None g -> inv N rep (gh h G) [] [g] [] ->
  hd_error (lids [g]) = Some f -> recover N O false (gh h G) f = Ok tx ->
  exists tr, wh_recover N h f = Ok tr /\ trel tx tr.
Proof.
  intros Eg W IV Ef E. unfold recover in E. cbv zeta in E.
  unfold lids in Ef. destruct (lvs [g]) as [|[i0 es0] ls] eqn:EL; [discriminate Ef|]. cbn [map fst hd_error] in Ef. injection Ef as ->.
  pose proof (inv_l IV) as IL. rewrite EL in IL. pose proof (inv_seg IV) as IS. unfold lids in IS. rewrite app_nil_r, EL in IS.
  cbn [app map fst seg] in IS. destruct IS as (S1 & S2 & S3).
  pose proof (Forall_inv IL) as (l0 & Hl0 & LR0). cbn [fst snd] in Hl0, LR0. apply Forall_inv_tail in IL.
  pose proof (inv_nd IV) as ND. pose proof (inv_lt IV) as LT. unfold lids in ND, LT. rewrite app_nil_r, EL in ND, LT. cbn [app map fst] in ND, LT.
  pose proof (ents_sorted W) as SO. unfold ents in SO. rewrite EL in SO. cbn [flat_map snd] in SO.
  unfold getl in E. change (hl (crash (gh h G)) f) with (hl (gh h G) f) in E. change (hnx (crash (gh h G)) f) with (hnx (gh h G) f) in E.
  rewrite Hl0 in E. cbn [of_opt bind] in E. unfold wh_recover. change (hnx (gh h G) f) with (hnx h f) in E, S2. rewrite S2 in *.
  destruct ls as [|[i1 es1] ls]; cbn [map hbd hd fst] in E |- *.
  - injection E as <-. eexists. split; [reflexivity|]. unfold trel. cbn [th troot tdepth wth wtb wroot wdepth]. splits; auto. apply crash_rel.
  - destruct d; [destruct g; [discriminate EL|contradiction W]|].
    pose proof (wf_leaf_sizes W (or_intror (Nat.neq_succ_0 d))) as FL. rewrite EL in FL. pose proof (Forall_inv FL) as LE0. cbn [snd] in LE0.
    apply Forall_inv_tail in FL.
    destruct (rec_node N (crash (gh h G)) f) as [[j h1]| |] eqn:En; try discriminate E. cbn [bind fst snd] in E.
    destruct (root_node_rel (crash_rel h G) En) as (h' & B' & -> & HR). cbn [bind].
    destruct (@rec_node_ok leaf N (crash (gh h G)) f) as (b0 & E0 & BR0).
    rewrite En in E0. injection E0 as -> ->.
    set (h1 := set_branch _ _ b0) in *.
    set (G0 := GB (hfresh (crash (gh h G))) [] [GL f es0] : gt).
    assert (SO0 : sorted es0) by (apply sorted_app in SO; tauto).
    assert (R0 : rinvm N M minL 0 (Tree h1 (hfresh (crash (gh h G))) 1) G0).
    { unfold rinvm, G0. cbn [troot tdepth th gid]. splits; auto; [eauto| |].
      - split; [cbn [length]; lia|]. cbn [kids]. split; [exact I|]. split; [exact SO0|]. split; [|cbn [mn]; lia].
        rewrite Forall_forall. intros y Hy. split; exact I.
      - apply binv_GB. splits.
        + apply binv_GL.
        + rewrite bids_GL. intros [].
        + unfold h1. cbn [set_branch new_branch snd hfresh crash gh]. lia.
        + exists b0. unfold h1. cbn [set_branch hb fst snd]. rewrite upd_same'. auto. }
    assert (LEN : length ((i1, es1) :: ls) < S (hfresh (crash (gh h G)))).
    { pose proof (NoDup_bound HN (Nat.le_0_l _) ND LT) as Q. cbn [length map] in Q. rewrite map_length in Q. cbn [length].
      change (hfresh (crash (gh h G))) with (hfresh (gh h G)). lia. }
    assert (TR0 : trel (Tree h1 (hfresh (crash (gh h G))) 1) (WTree h' B' (hfresh (crash (gh h G))) 1)).
    { unfold trel. cbn [th troot tdepth wth wtb wroot wdepth]. auto. }
    pose proof (@rec_chain_sim 0 (Nat.le_0_l _) ((i1, es1) :: ls) _ _ G0 (Some f) (S (hfresh (crash (gh h G)))) tx TR0 R0) as Q.
    cbn [map hbd hd fst] in Q. apply Q; auto.
    + eapply seg_frame; [|exact S3]. intros j _. split; reflexivity.
    + replace (ents [G0]) with es0; [exact SO|]. unfold G0. rewrite ents_GB, ents_GL. reflexivity.
Qed.

(** ** Separators lie between stored keys *)
Lemma kids_sep d : forall ks lo (cs : list gt) hi (k : Z), kids (wf (mn minL 0 d) d) lo ks cs hi -> In k ks ->
  exists x y, In x (keys (ents cs)) /\ In y (keys (ents cs)) /\ (x <= k <= y)%Z.
Proof.
  assert (NE : forall lo hi g, wf (mn minL 0 d) d lo hi g -> exists x, In x (keys (ents [g]))).
  { intros lo hi g W. assert (Hd : mn minL 0 d = 0 -> d <> 0) by (pose proof HL; destruct d; cbn [mn]; lia).
    pose proof (wf_nonempty HL Hd W) as H. destruct (ents [g]) as [|[x v] l]; [congruence|]. exists x. left. reflexivity. }
  assert (BD : forall lo hi g, wf (mn minL 0 d) d lo hi g -> Forall (inb lo hi) (keys (ents [g]))).
  { intros lo hi g W. apply (proj2 (wf_okc W)). }
  induction ks as [|k0 ks IH]; intros lo cs hi k K Hk; [destruct Hk|].
  destruct cs as [|c cs]; [contradiction K|]. destruct K as (B1 & Wc & K). rewrite ents_cons, keys_app.
  destruct Hk as [->|Hk].
  - destruct (NE _ _ _ Wc) as (x & Hx). pose proof (BD _ _ _ Wc) as Bx. rewrite Forall_forall in Bx. apply Bx in Hx as Hx'.
    assert (exists y, In y (keys (ents cs)) /\ (k <= y)%Z) as (y & Hy & Hky).
    { destruct cs as [|c2 cs]; [destruct ks; contradiction K|]. rewrite ents_cons, keys_app.
      assert (exists h2, wf (mn minL 0 d) d (Some k) h2 c2) as (h2 & W2).
      { destruct ks as [|k2 ks]; cbn [kids] in K; [|destruct K as (_ & K & _); eauto]. destruct cs; [destruct K; eauto|contradiction K]. }
      destruct (NE _ _ _ W2) as (y & Hy). exists y. split; [apply in_or_app; auto|].
      pose proof (BD _ _ _ W2) as By. rewrite Forall_forall in By. apply By in Hy. destruct Hy as [Hy _]. exact Hy. }
    exists x, y. splits; try (apply in_or_app; auto); auto. destruct Hx' as [_ Hx']. cbn [hib] in Hx'. lia.
  - destruct (IH _ _ _ _ K Hk) as (x & y & Hx & Hy & H). exists x, y. splits; try (apply in_or_app; auto); lia.
Qed.
(** ** The number of leaves decides *)
Lemma rsh_bound d : forall m lo hi g n, wf m d lo hi g -> rsh N d g n -> 1 <= n <= S N ^ d.
Proof.
  induction d as [|d IH]; intros m lo hi [i es|i ks cs] n W R; try contradiction W; cbn [rsh] in R.
  - cbn [Nat.pow]. lia.
  - destruct W as [Hm K]. destruct R as (CA & c & q & -> & LC & _ & Rc & ->).
    destruct (kids_mono K (c := c)) as (x & y & _ & Wc); [apply in_or_app; simpl; auto|].
    apply (IH _ _ _ _ _ Wc) in Rc. cbn [Nat.pow]. nia.
Qed.

Definition digit (n j : nat) := (n / S N ^ j) mod S N.
Lemma digit_top a r d : r < S N ^ d -> a <= N -> digit (a * S N ^ d + r) d = a.
Proof.
  intros Hr Ha. unfold digit. rewrite Nat.div_add_l, (Nat.div_small r) by lia. rewrite Nat.add_0_r. apply Nat.mod_small. lia.
Qed.
Lemma digit_low a r d j : j < d -> digit (a * S N ^ d + r) j = digit r j.
Proof.
  intros Hj. unfold digit. replace d with (j + S (d - S j)) by lia. rewrite Nat.pow_add_r, Nat.pow_succ_r'.
  set (P := S N ^ j). assert (P <> 0) by (apply Nat.pow_nonzero; lia). set (Y := S N ^ (d - S j)).
  replace (a * (P * (S N * Y)) + r) with (a * Y * S N * P + r) by lia. rewrite Nat.div_add_l by auto.
  rewrite Nat.add_comm, Nat.mod_add by lia. reflexivity.
Qed.

(** All nodes have a key. *)
Fixpoint full (d : nat) g : Prop :=
  match d, g with
  | 0, GL _ _ => True
  | S d', GB _ ks cs => ks <> [] /\ Forall (full d') cs
  | _, _ => False
  end.
Lemma perf_full d : forall g, perf N d g -> full d g.
Proof.
  induction d as [|d IH]; intros [i es|i ks cs] H; cbn [perf full] in *; try tauto. destruct H as [H1 H2]. split.
  - intros ->. cbn [length] in H1. lia.
  - eapply Forall_impl; [|exact H2]. auto.
Qed.
Lemma rsh_full d : forall m lo hi g n, wf m d lo hi g -> rsh N d g n -> (forall j, j < d -> digit (n - 1) j <> 0) -> full d g.
Proof.
  induction d as [|d IH]; intros m lo hi [i es|i ks cs] n W R H; try contradiction W; cbn [rsh full] in *; auto.
  destruct W as [Hm K]. destruct R as (CA & c & q & -> & LC & PA & Rc & ->).
  destruct (kids_mono K (c := c)) as (x & y & _ & Wc); [apply in_or_app; simpl; auto|].
  pose proof (rsh_bound Wc Rc) as Bq. replace (length CA * S N ^ d + q - 1) with (length CA * S N ^ d + (q - 1)) in H by lia. split.
  - intros ->. apply (H d); [lia|]. rewrite digit_top by lia. cbn [length] in LC. lia.
  - apply Forall_app. split; [eapply Forall_impl; [|exact PA]; intros; now apply perf_full|]. constructor; [|constructor].
    apply (IH _ _ _ _ _ Wc Rc). intros j Hj. rewrite <- (digit_low (length CA) (q - 1) Hj). apply H. lia.
Qed.
Lemma fits_digits m d lo hi g n : wf (rmin d) d lo hi g -> rsh N d g n -> m = n -> (rec_fits N m <-> forall j, j < d -> digit (n - 1) j <> 0).
Proof.
  intros W R ->. pose proof (rsh_bound W R) as Bn. unfold rec_fits. split; intros H j Hj.
  - apply H. destruct d as [|d]; [lia|]. destruct g as [|i ks cs]; [contradiction W|]. destruct W as [Hm K]. cbn [rmin] in Hm.
    cbn [rsh] in R. destruct R as (CA & c & q & -> & LC & _ & Rc & ->).
    destruct (kids_mono K (c := c)) as (x & y & _ & Wc); [apply in_or_app; simpl; auto|].
    pose proof (rsh_bound Wc Rc) as Bq. assert (S N ^ j <= S N ^ d) by (apply Nat.pow_le_mono_r; lia). nia.
  - apply H. destruct (Nat.lt_ge_cases j d) as [Hd|Hd]; auto. exfalso.
    assert (S N ^ d <= S N ^ j) by (apply Nat.pow_le_mono_r; lia). lia.
Qed.

(** ** What a rebuilt node looks like to the search *)
Lemma nrel_slotkeys br b ks cs : nrel br b -> brep N br ks cs -> slot_keys (wbk b) (bs b) ks.
Proof.
  intros (Hn & L1 & L2 & L3 & L4 & L5 & HB & Hbit & HC & HS & HU & HK & HCh & H0 & Hl & _) (En & _ & _ & [Rk EK] & _). split.
  - rewrite HC. now f_equal.
  - intros i k Hk. assert (i < length ks) by (apply nth_error_Some; congruence). exists i. split; [apply HS; lia|].
    apply aget_nth. rewrite HK by lia. rewrite EK, nth_error_app1 by (rewrite map_length; lia). rewrite nth_error_map, Hk. reflexivity.
Qed.
Lemma nrel_pos br b ks cs a bb0 k : nrel br b -> brep N br ks cs -> ks = a ++ bb0 -> ssorted ks -> ale k a -> agt k bb0 ->
  wb_pos b k = Ok (S (length a)).
Proof.
  intros R BR -> SO Ha Hb. unfold wb_pos. apply (@sbsearch_pos_correct true k a bb0); auto.
  - eapply nrel_slotkeys; eauto.
  - split; auto.
Qed.
Lemma nrel_kid br b ks cs i c : nrel br b -> brep N br ks cs -> nth_error cs i = Some c -> i < length ks \/ i = 0 -> aget (wbc b) i = Ok c.
Proof.
  intros (Hn & L1 & L2 & L3 & L4 & L5 & HB & Hbit & HC & HS & HU & HK & HCh & H0 & Hl & _) (En & _ & _ & _ & [Rc EC]) Hc Hi.
  apply aget_nth. rewrite HCh by lia. rewrite EC, nth_error_app1 by (rewrite map_length; apply nth_error_Some; congruence).
  rewrite nth_error_map, Hc. reflexivity.
Qed.

Lemma nrel_wbrep br b ks cs : nrel br b -> brep N br ks cs -> length cs = S (length ks) -> ssorted ks -> ks <> [] -> wbrep N b ks cs.
Proof.
  intros R BR LCS SK NE.
  assert (LP : 0 < length ks) by (destruct ks; [congruence|cbn [length]; lia]).
  pose proof (nrel_slotkeys R BR) as [_ SKS].
  destruct (@split_at _ cs (length ks)) as (cs0 & cl & -> & LC0); [lia|]. rewrite app_length in LCS.
  destruct cl as [|last [|? ?]]; cbn [length] in LCS; try lia. clear LCS.
  pose proof (fun i c => @nrel_kid br b ks (cs0 ++ [last]) i c R BR) as KID.
  destruct R as (Hn & L1 & L2 & L3 & L4 & L5 & HB & Hbit & HC & HS & HU & HK & HCh & H0 & Hl & _).
  destruct BR as (En & _ & _ & _ & [Rc EC]).
  assert (EK : keys (combine ks cs0) = ks /\ map snd (combine ks cs0) = cs0).
  { clear - LC0. revert cs0 LC0. induction ks as [|k ks IH]; intros [|c cs] H; cbn [length] in H; try lia; [split; reflexivity|].
    destruct (IH cs) as [I1 I2]; [lia|]. unfold keys in *. cbn [combine map fst snd]. rewrite I1, I2. auto. }
  destruct EK as [EK ES]. assert (LE : length (combine ks cs0) = length ks) by (rewrite <- (keys_length (combine ks cs0)), EK; reflexivity).
  exists (combine ks cs0), last, (seq 0 (length ks)), (skipn (S (length ks)) (bs b)), (firstn N (wbc b)).
  rewrite EK, ES, LE. splits; auto.
  - assert (HN0 : forall i x, nth_error (Some (length ks) :: map Some (seq 0 (length ks))) i = Some x -> nth_error (bs b) i = Some x).
    { intros [|i] x Hx; cbn [nth_error] in Hx.
      - injection Hx as <-. apply aget_nth. now rewrite HC, En.
      - rewrite nth_error_map in Hx. destruct (nth_error (seq 0 (length ks)) i) as [j|] eqn:Ej; [|discriminate]. injection Hx as <-.
        apply nth_error_seq_inv in Ej as [-> Hi]. cbn [Nat.add]. apply aget_nth. apply HS. lia. }
    rewrite app_comm_cons. rewrite <- (firstn_skipn (S (length ks)) (bs b)) at 1. f_equal.
    apply (nth_ext _ _ None None).
    + rewrite firstn_length. cbn [length]. rewrite map_length, seq_length. lia.
    + intros i Hi. rewrite firstn_length in Hi.
      assert (exists x, nth_error (Some (length ks) :: map Some (seq 0 (length ks))) i = Some x) as (x & Hx).
      { destruct (nth_error (Some (length ks) :: map Some (seq 0 (length ks))) i) eqn:E; eauto.
        apply nth_error_None in E. cbn [length] in E. rewrite map_length, seq_length in E. lia. }
      rewrite (nth_error_nth _ _ None Hx). apply nth_error_nth. apply HN0 in Hx.
      rewrite <- (firstn_skipn (S (length ks)) (bs b)) in Hx. rewrite nth_error_app1 in Hx; auto. rewrite firstn_length. lia.
  - rewrite <- (firstn_skipn N (wbc b)) at 1. f_equal.
    assert (EL : nth_error (wbc b) N = Some (Some last)).
    { rewrite Hl by lia. rewrite EC, En, nth_error_app1 by (rewrite map_length, app_length; cbn [length]; lia).
      rewrite nth_error_map, nth_error_app2 by lia. rewrite LC0, Nat.sub_diag. reflexivity. }
    clear - L4 EL. rewrite <- (firstn_skipn N (wbc b)) in EL. rewrite nth_error_app2 in EL by (rewrite firstn_length; lia).
    rewrite firstn_length, L4, Nat.min_l, Nat.sub_diag in EL by lia.
    assert (LS : length (skipn N (wbc b)) = 1) by (rewrite skipn_length; lia).
    destruct (skipn N (wbc b)) as [|x [|? ?]]; cbn [length] in LS; try lia. cbn [nth_error] in EL. now injection EL as ->.
  - unfold store. splits; auto.
    + rewrite firstn_length. lia.
    + apply seq_NoDup.
    + intros i. rewrite Hbit, in_seq, En. destruct (Nat.ltb_spec i (length ks)); split; try lia; auto; discriminate.
    + apply F2_nth; [now rewrite seq_length, LE|]. intros i x [k c] Hx Hy. apply nth_error_seq_inv in Hx as [-> Hi]. cbn [Nat.add].
      assert (Hk : nth_error ks i = Some k) by (rewrite <- EK; unfold keys; rewrite nth_error_map, Hy; reflexivity).
      assert (Hc : nth_error cs0 i = Some c) by (rewrite <- ES, nth_error_map, Hy; reflexivity).
      destruct (SKS i k Hk) as (s & E1 & E2). rewrite HS in E1 by lia. injection E1 as <-. split; cbn [fst snd]; auto.
      apply aget_nth. rewrite <- (firstn_skipn N (wbc b)) in KID.
      specialize (KID i c). rewrite nth_error_app1 in KID by lia. specialize (KID Hc (or_introl Hi)). apply aget_nth in KID.
      rewrite nth_error_app1 in KID; auto. rewrite firstn_length. lia.
  - unfold sorted. now rewrite EK.
Qed.
Lemma nrel_wbsp br b ks c cs : nrel br b -> brep N br ks (c :: cs) -> wbsp b ks (c :: cs).
Proof.
  intros R BR. exists c. splits; auto.
  - eapply nrel_kid; eauto.
  - intros NE. destruct R as (_ & _ & _ & _ & _ & _ & _ & _ & _ & HS & _). destruct BR as (En & _). apply HS.
    destruct ks; [congruence|]. cbn [length] in En. lia.
Qed.

(** The insert takes the child of a node with a single child from position N, where there is nothing. *)
Lemma nrel_empty br b cs k : nrel br b -> brep N br [] cs -> wb_pos b k = Ok 1 /\ wb_child N b 1 = UB.
Proof.
  intros R BR. split.
  - eapply (@nrel_pos br b [] cs [] []); eauto; constructor.
  - destruct R as (_ & _ & _ & _ & _ & _ & _ & _ & HC & _ & _ & _ & _ & H0 & _). destruct BR as (En & _). cbn [length] in En.
    unfold wb_child. rewrite HC, En. cbn [bind]. change (1 =? 0 + 1) with true. cbv iota. unfold aget. now rewrite H0.
Qed.

Definition hrelx (hx : hp) (B : bmap) := forall i, orel (hb hx i) (B i).
Lemma bok_node hx B i ks cids : hrelx hx B -> bok N hx (i, (ks, cids)) -> exists br b, B i = Some b /\ nrel br b /\ brep N br ks cids.
Proof.
  intros HR (br & E & BR). cbn [fst snd] in *. specialize (HR i). rewrite E in HR. destruct (B i) as [b|]; [|contradiction HR].
  exists br, b. auto.
Qed.

Lemma rec_nok hx B d : forall m lo hi g, hrelx hx B -> wf m d lo hi g -> binv N hx [g] -> full d g -> nok (wbrep N) B [g].
Proof.
  induction d as [|d IH]; intros m lo hi [i es|i ks cs] HR W BI HF; try contradiction W.
  - constructor.
  - destruct W as [Hm K]. destruct HF as [NE HF]. apply binv_GB in BI as (BC & _ & _ & BO). apply nok_GB. split.
    + destruct (bok_node HR BO) as (br & b & Eb & R & BR). exists b. split; [exact Eb|]. cbn [fst snd].
      apply (nrel_wbrep R BR); auto.
      * rewrite map_length. apply (kids_length K).
      * apply (proj1 (kids_sorted K)).
    + assert (HA : forall c, In c cs -> nok (wbrep N) B [c]).
      { intros c Hc. destruct (kids_mono K Hc) as (x & y & _ & Wc). rewrite Forall_forall in HF.
        apply in_split in Hc as Hs. destruct Hs as (c1 & c2 & ->). change (c1 ++ c :: c2) with (c1 ++ [c] ++ c2) in *.
        apply binv_app in BC as (_ & BC & _). apply binv_app in BC as (BC & _ & _). eapply IH; eauto. }
      clear - HA. induction cs as [|c cs IH]; [constructor|]. change (c :: cs) with ([c] ++ cs). apply nok_app. split; [apply HA; simpl; auto|].
      apply IH. intros c' Hc. apply HA. simpl; auto.
Qed.

Lemma rec_spine hx B d : forall m lo hi g, hrelx hx B -> wf m d lo hi g -> binv N hx [g] -> spine wbsp B d g.
Proof.
  induction d as [|d IH]; intros m lo hi [i es|i ks cs] HR W BI; try contradiction W; cbn [spine]; auto.
  destruct W as [Hm K]. apply binv_GB in BI as (BC & _ & _ & BO). destruct cs as [|c cs]; [destruct ks; contradiction K|].
  destruct (bok_node HR BO) as (br & b & Eb & R & BR). split.
  - exists b. split; [exact Eb|]. cbn [map] in *. apply (nrel_wbsp R BR).
  - destruct (kids_mono K (c := c)) as (x & y & _ & Wc); [simpl; auto|]. change (c :: cs) with ([c] ++ cs) in BC.
    apply binv_app in BC as (BC & _ & _). eapply IH; eauto.
Qed.

Lemma last_ale d ks lo (cs : list gt) hi k : kids (wf (mn minL 0 d) d) lo ks cs hi -> Forall (fun x => (x <= k)%Z) (keys (ents cs)) -> ale k ks.
Proof.
  intros K Hk. rewrite ale_in. intros z Hz. destruct (kids_sep K Hz) as (x & y & Hx & Hy & H). rewrite Forall_forall in Hk. apply Hk in Hy. lia.
Qed.

(** With a zero digit, a key not below the stored ones is led to a node with a single child. *)
Lemma rec_lost hx B d : forall m lo g n k, hrelx hx B -> wf m d lo None g -> binv N hx [g] -> rsh N d g n ->
  Forall (fun x => (x <= k)%Z) (keys (ents [g])) -> (exists j, j < d /\ digit (n - 1) j = 0) -> wt_route N B d (gid g) k = UB.
Proof.
  induction d as [|d IH]; intros m lo [i es|i ks cs] n k HR W BI RS Hk (j & Hj & Hd); try contradiction W; [lia|].
  destruct W as [Hm K]. apply binv_GB in BI as (BC & _ & _ & BO). cbn [rsh] in RS. destruct RS as (CA & c & q & -> & LC & PA & Rc & ->).
  rewrite ents_GB in Hk. destruct (bok_node HR BO) as (br & b & Eb & R & BR). cbn [wt_route gid]. unfold getwb. rewrite Eb. cbn [of_opt bind].
  destruct ks as [|k0 ks0].
  - destruct (nrel_empty k R BR) as [-> E2]. cbn [bind]. rewrite E2. reflexivity.
  - set (ks := k0 :: ks0) in *. destruct (kids_last K) as (CA' & c' & Ec & _ & _ & _ & Wc). apply app_inj_tail in Ec as [<- <-].
    pose proof (last_ale K Hk) as AL.
    assert (BB : wbrep N b (ks ++ []) (map (@gid V) CA ++ gid c :: [])).
    { rewrite app_nil_r. rewrite map_app in BR. apply (nrel_wbrep R BR); auto; [|apply (proj1 (kids_sorted K))|discriminate].
      rewrite app_length, map_length. cbn [map length]. lia. }
    assert (AG : agt k []) by constructor. assert (LCA : length (map (@gid V) CA) = length ks) by now rewrite map_length.
    rewrite (@wb_pos_ok N b ks [] _ k BB AL AG). cbn [bind]. rewrite (wb_child_ok HN BB LCA eq_refl). cbn [bind].
    pose proof (rsh_bound Wc Rc) as Bq. replace (length CA * S N ^ d + q - 1) with (length CA * S N ^ d + (q - 1)) in Hd by lia.
    apply binv_app in BC as (_ & BC & _). rewrite ents_app, keys_app, Forall_app in Hk.
    apply (IH _ _ _ _ _ HR Wc BC Rc); [tauto|]. exists j.
    destruct (Nat.eq_dec j d) as [->|Hne].
    + rewrite digit_top in Hd by lia. exfalso. unfold ks in LC. cbn [length] in LC. lia.
    + split; [lia|]. now rewrite digit_low in Hd by lia.
Qed.
(** findLeafNode: the right leaf or an unwritten slot. *)
Lemma rec_find hx B d : forall m lo hi g k, hrelx hx B -> wf m d lo hi g -> binv N hx [g] -> inb lo hi k ->
  wt_find B d (gid g) k = UB \/
  exists LA i es LB, wt_find B d (gid g) k = Ok i /\ lvs [g] = LA ++ (i, es) :: LB /\
    alt k (keys (flat_map snd LA)) /\ agt k (keys (flat_map snd LB)).
Proof.
  induction d as [|d IH]; intros m lo hi [i es|i ks cs] k HR W BI Hk; try contradiction W.
  - right. exists [], i, es, []. splits; auto; constructor.
  - destruct W as [Hm K]. apply binv_GB in BI as (BC & _ & _ & BO).
    destruct (route K Hk) as (a & bb0 & CA & c & CB & -> & -> & LA & LB & Ha & Hbb & KL & Rc & Bd & KR & Hkc).
    destruct (bok_node HR BO) as (br & b & Eb & R & BR). cbn [wt_find gid]. unfold getwb. rewrite Eb. cbn [of_opt bind].
    rewrite (nrel_pos R BR eq_refl (proj1 (kids_sorted K)) Ha Hbb). cbn [bind].
    assert (HG : aget (bs b) (S (length a)) = UB \/ (aget (bs b) (S (length a)) = Ok (length a) /\ (length a < length (a ++ bb0) \/ length a = 0))).
    { destruct R as (_ & _ & _ & _ & _ & _ & _ & _ & _ & HS & HU & _). destruct BR as (En & _). rewrite En in *.
      destruct (Nat.lt_ge_cases (length a) (length (a ++ bb0))) as [Hl|Hl]; [right; rewrite HS; auto|].
      destruct (HU _ Hl) as [|[Z0 Z1]]; [left; auto|right]. rewrite Z1. split; [f_equal; lia|lia]. }
    destruct HG as [->|[-> HG]]; [left; reflexivity|]. cbn [bind].
    rewrite (@nrel_kid br b _ _ (length a) (gid c) R BR); auto.
    2:{ rewrite map_app. cbn [map]. rewrite nth_error_app2 by (rewrite map_length; lia). rewrite map_length, LA, Nat.sub_diag. reflexivity. }
    cbn [bind]. change (CA ++ c :: CB) with (CA ++ [c] ++ CB) in BC. apply binv_app in BC as (_ & BC & _). apply binv_app in BC as (BC & _ & _).
    destruct (IH _ _ _ _ k HR Rc BC Hkc) as [|(lA & j & es & lB & E & EL & H1 & H2)]; [left; auto|right].
    exists (lvs CA ++ lA), j, es, (lB ++ lvs CB).
    destruct (ctx_ents (wf_okc (m := mn minL 0 d) (d := d)) KL KR Hkc) as [HA HBB]. unfold ents in HA, HBB. splits; auto.
    + rewrite lvs_GB, lvs_cons_cut, EL. rewrite <- !app_assoc. reflexivity.
    + rewrite flat_map_app, keys_app. apply Forall_app. auto.
    + rewrite flat_map_app, keys_app. apply Forall_app. auto.
Qed.
(** As soon as there is a branch node, the largest keys are not found. *)
Lemma rec_find_last hx B d lo g k : hrelx hx B -> wf 1 (S d) lo None g -> binv N hx [g] -> Forall (fun x => (x <= k)%Z) (keys (ents [g])) ->
  wt_find B (S d) (gid g) k = UB.
Proof.
  intros HR W BI Hk. destruct g as [i es|i ks cs]; [contradiction W|]. destruct W as [Hm K]. apply binv_GB in BI as (BC & _ & _ & BO).
  rewrite ents_GB in Hk. pose proof (last_ale K Hk) as AL.
  destruct (bok_node HR BO) as (br & b & Eb & R & BR). cbn [wt_find gid]. unfold getwb. rewrite Eb. cbn [of_opt bind].
  rewrite (@nrel_pos br b ks _ ks [] k R BR (eq_sym (app_nil_r _)) (proj1 (kids_sorted K)) AL); [|constructor]. cbn [bind].
  destruct R as (_ & _ & _ & _ & _ & _ & _ & _ & _ & _ & HU & _). destruct BR as (En & _).
  destruct (HU (length ks)) as [->|[Z0 _]]; [lia|reflexivity|]. cbn [length] in *. lia.
Qed.

(** ** One restart *)
Lemma chain_len_ok hx : forall ids p (fuel : nat), seg (L := leaf) hx p ids None -> length ids < fuel ->
  chain_len fuel (hnx hx) (hbd ids None) = length ids.
Proof.
  induction ids as [|i ids IH]; intros p fuel HS Hf.
  - destruct fuel; reflexivity.
  - cbn [seg] in HS. destruct HS as (_ & S2 & S3). destruct fuel as [|fuel]; [lia|]. cbn [length] in *. cbn [hbd hd map chain_len].
    rewrite S2. f_equal. eapply IH; eauto. lia.
Qed.

Lemma recover_core h G r d g : gid g = r -> wf (rmin d) d None None g -> inv N rep (gh h G) [] [g] [] -> hd_error (lids [g]) = Some 0 ->
  chain_len (S (hfresh h)) (hnx h) (Some 0) = length (lvs [g]) /\
  exists tr G' g', wh_recover N h 0 = Ok tr /\ gid g' = wroot tr /\ wf (rmin (wdepth tr)) (wdepth tr) None None g' /\
    inv N rep (gh (wth tr) G') [] [g'] [] /\ ents [g'] = ents [g] /\ length (lvs [g']) = length (lvs [g]) /\ hd_error (lids [g']) = Some 0 /\
    spine wbsp (wtb tr) (wdepth tr) g' /\
    (rec_fits N (length (lvs [g])) -> nok (wbrep N) (wtb tr) [g']) /\
    (~ rec_fits N (length (lvs [g])) -> forall k, Forall (fun x => (x <= k)%Z) (keys (ents [g'])) ->
       wt_route N (wtb tr) (wdepth tr) (wroot tr) k = UB) /\
    (forall k, wt_find (wtb tr) (wdepth tr) (wroot tr) k = UB \/
      exists LA i es LB, wt_find (wtb tr) (wdepth tr) (wroot tr) k = Ok i /\ lvs [g'] = LA ++ (i, es) :: LB /\
        alt k (keys (flat_map snd LA)) /\ agt k (keys (flat_map snd LB))) /\
    (wdepth tr <> 0 -> forall k, Forall (fun x => (x <= k)%Z) (keys (ents [g'])) -> wt_find (wtb tr) (wdepth tr) (wroot tr) k = UB).
Proof.
  intros Eg W IV Ef. split.
  { pose proof (inv_seg IV) as IS. cbn [app] in IS. rewrite app_nil_r in IS.
    pose proof (chain_fuel HN (Nat.le_0_l _) IV) as CF. cbn [gh hfresh] in CF.
    replace (Some 0) with (hbd (lids [g]) None).
    - change (hnx h) with (hnx (gh h G)). rewrite (@chain_len_ok (gh h G) (lids [g]) None (S (hfresh h))); [now unfold lids; rewrite map_length|exact IS|].
      unfold lids. rewrite map_length. lia.
    - destruct (lids [g]); [discriminate|]. injection Ef as ->. reflexivity. }
  set (t0 := Tree (gh h G) r d).
  destruct (@recover_shape leaf V N M O rep minL MK HN HL 0 t0 g (ents [g])) as (tx & g' & E & (E1 & W' & I' & Ee & Ef') & LV & RS); auto.
  cbn [t0 th] in E. destruct (recover_sim Eg W IV Ef E) as (tr & Er & (HR & TR & TD)).
  assert (EH : gh (wth tr) (hb (th tx)) = th tx).
  { destruct HR as (H1 & H2 & H3 & H4 & _). unfold gh. rewrite H1, H2, H3, H4. destruct (th tx); reflexivity. }
  assert (HX : hrelx (th tx) (wtb tr)) by (unfold hrelx; apply HR).
  assert (BI : binv N (th tx) [g']). { destruct I' as [? ? ? ? ? ? ? ?]. unfold binv. cbn [app] in *. rewrite ?app_nil_r in *. auto. }
  exists tr, (hb (th tx)), g'. rewrite EH, <- TR, <- TD. splits; auto.
  - now rewrite LV.
  - eapply rec_spine; eauto.
  - intros HF. eapply rec_nok; eauto. eapply rsh_full; eauto. exact (proj1 (fits_digits W' RS eq_refl) HF).
  - intros HF k Hk. rewrite <- E1. eapply rec_lost; eauto.
    destruct (Exists_dec (fun j => digit (length (lvs [g]) - 1) j = 0) (seq 0 (tdepth tx)) (fun j => Nat.eq_dec _ 0)) as [Hx|Hx].
    + apply Exists_exists in Hx as (j & Hj & Hd). apply in_seq in Hj. exists j. split; [lia|auto].
    + exfalso. apply HF. apply (fits_digits W' RS eq_refl). intros j Hj Hd. apply Hx. apply Exists_exists. exists j. split; auto. apply in_seq. lia.
  - intros k. rewrite <- E1. eapply rec_find; eauto. split; exact I.
  - intros ND k Hk. rewrite <- E1. destruct (tdepth tx) as [|d']; [congruence|]. eapply rec_find_last; eauto.
Qed.
End Rec.
