(** recover() of BitHPBPTree: a step-by-step comparison with the recovery of FPTree (RecoverProofs),
    whose branch nodes are sorted.  The rebuilt nodes correspond, except that a node with a single
    child cannot be searched. *)
From Verif Require Import Base ArrLemmas MapSpec SortedList RankModel RankProofs BitmapModel BTreeModel BTreeLaws BTreeBranch
  BTreeGhost BTreeInsert BTreeSpec BTreeMain FLeafModel FLeafProofs BitTreeModel InsSpec XTree BitProofs RecoverModel RecoverProofs BitHModel BitHProofs RecSpec.
Open Scope nat_scope.

Lemma nth_repeat_true n m i : nth_error (repeat true n ++ repeat false m) i = if i <? n then Some true else if i <? n + m then Some false else None.
Proof.
  destruct (Nat.ltb_spec i n).
  - rewrite nth_error_app1 by (rewrite repeat_length; lia). now rewrite nth_error_repeat.
  - rewrite nth_error_app2 by (rewrite repeat_length; lia). rewrite repeat_length. destruct (Nat.ltb_spec i (n + m)).
    + rewrite nth_error_repeat by lia. reflexivity.
    + apply nth_error_None. rewrite repeat_length. lia.
Qed.
Lemma count_lin n m : count_bits (repeat true n ++ repeat false m) = n.
Proof.
  unfold count_bits. rewrite filter_app, app_length.
  assert (A : forall k, length (filter id (repeat true k)) = k) by (induction k; cbn; auto).
  assert (B : forall k, length (filter id (repeat false k)) = 0) by (induction k; cbn; auto).
  rewrite A, B. lia.
Qed.
Lemma lset_lin n m : 0 < m -> lset (repeat true n ++ repeat false m) n true = Some (repeat true (S n) ++ repeat false (m - 1)).
Proof.
  intros H. destruct m as [|m]; [lia|]. cbn [repeat Nat.sub]. rewrite Nat.sub_0_r.
  rewrite lset_app_at by now rewrite repeat_length.
  f_equal. change (true :: repeat false m) with ([true] ++ repeat false m). rewrite app_assoc. f_equal.
  induction n; cbn; auto. now rewrite IHn.
Qed.

Lemma nth_error_seq_inv n : forall a i x, nth_error (seq a n) i = Some x -> x = a + i /\ i < n.
Proof.
  induction n as [|n IH]; intros a i x H; [destruct i; discriminate|]. destruct i as [|i]; cbn [seq nth_error] in H.
  - injection H as <-. lia.
  - apply IH in H. lia.
Qed.

Section Rec.
Variables (V : Type) (t : ktype) (N M : nat).
Hypothesis Ht : (1 <= kt_bits t <= 64)%Z.
Hypothesis HN : 2 <= N.
Hypothesis H64 : N mod 64 <> 0.
Hypothesis HM : 2 <= M.
Notation leaf := (fleaf V).
Variable O : leafops leaf V.
Variable rep : leaf -> list (Z * V) -> Prop.
Hypothesis LL : leaf_laws O M (M / 2) (bkok t) rep.
Hypothesis rep_kok : forall l es, rep l es -> Forall (bkok t) (keys es).
Hypothesis MK : forall l es x (v : V), rep l ((x, v) :: es) -> lo_minkey O l = Ok x.
Notation hp := (heap leaf).
Notation bmap := (nat -> option bbranch).
Notation gt := (gt V).
Notation minL := (M / 2).
Notation wf := (wf N M minL 0).
Implicit Types (g : gt) (CA : list gt).
Lemma HL : 1 <= minL.
Proof. apply Nat.div_le_lower_bound; lia. Qed.

(** The same node with its children in reading order and with the bitmap; the last child is at N. *)
Definition nrel (br : branch) (b : bbranch) : Prop :=
  bn br <= N /\ length (bk br) = N /\ length (bc br) = S N /\ length (bbk b) = N /\ length (bbc b) = S N /\
  bbits b = repeat true (bn br) ++ repeat false (N - bn br) /\
  (forall i, i < bn br -> nth_error (bbk b) i = nth_error (bk br) i) /\
  (forall i, i < bn br \/ i = 0 -> nth_error (bbc b) i = nth_error (bc br) i) /\
  (bn br = 0 -> nth_error (bbc b) N = Some None) /\
  (0 < bn br -> nth_error (bbc b) N = nth_error (bc br) (bn br)) /\
  exists c, aget (bc br) (bn br) = Ok c.

Definition orel (x : option branch) (y : option bbranch) : Prop :=
  match x, y with Some br, Some b => nrel br b | None, None => True | _, _ => False end.
Definition hrel (hx h : hp) (B : bmap) : Prop :=
  hl h = hl hx /\ hnx h = hnx hx /\ hpv h = hpv hx /\ hfresh h = hfresh hx /\ forall i, orel (hb hx i) (B i).

Lemma nrel_count br b : nrel br b -> count_bits (bbits b) = bn br.
Proof. intros (_ & _ & _ & _ & _ & -> & _). apply count_lin. Qed.

Lemma append_rel br b key c ks cs : nrel br b -> bn br <> N -> aset (bk br) (bn br) key = Ok ks -> aset (bc br) (S (bn br)) c = Ok cs ->
  exists b', bh_append N b key c = Ok b' /\ nrel (Branch (S (bn br)) ks cs) b'.
Proof.
  intros R HNE E1 E2. pose proof (nrel_count R) as HC. destruct R as (Hn & L1 & L2 & L3 & L4 & Eb & HK & HCh & H0 & Hl & (c0 & Hc0)).
  unfold bh_append. rewrite HC, Eb. rewrite lset_lin by lia. cbn [of_opt bind].
  destruct (@aset_ok _ (bbk b) (bn br) key) as (ks' & F1); [lia|]. rewrite F1. cbn [bind].
  apply aget_nth in Hc0.
  assert (exists c1, (if 0 <? bn br then do l <- aget (bbc b) N; aset (bbc b) (bn br) l else Ok (bbc b)) = Ok c1 /\ length c1 = S N /\
    forall i, i <= bn br -> nth_error c1 i = nth_error (bc br) i) as (c1 & -> & Lc1 & Hc1).
  { destruct (Nat.ltb_spec 0 (bn br)) as [Hp|Hz].
    - assert (EN : aget (bbc b) N = Ok c0) by (apply aget_nth; rewrite Hl; auto).
      rewrite EN. cbn [bind]. destruct (@aset_ok _ (bbc b) (bn br) c0) as (c1 & F2); [lia|]. exists c1. splits; auto.
      + now rewrite (aset_length F2).
      + intros i Hi. rewrite (aset_nth i F2). destruct (Nat.eqb_spec i (bn br)) as [->|]; [congruence|]. apply HCh. lia.
    - exists (bbc b). splits; auto. intros i Hi. apply HCh. lia. }
  cbn [bind]. destruct (@aset_ok _ c1 N c) as (c2 & F3); [lia|]. rewrite F3. cbn [bind].
  eexists. split; [reflexivity|]. unfold nrel. cbn [bn bk bc bbits bbk bbc].
  rewrite (aset_length E1), (aset_length E2), (aset_length F1), (aset_length F3). splits; auto; try lia.
  - f_equal. f_equal. lia.
  - intros i Hi. rewrite (aset_nth i F1), (aset_nth i E1). destruct (Nat.eqb_spec i (bn br)); auto. apply HK. lia.
  - intros i Hi. rewrite (aset_nth i F3), (aset_nth i E2). destruct (Nat.eqb_spec i N); [lia|]. destruct (Nat.eqb_spec i (S (bn br))); [lia|].
    apply Hc1. lia.
  - intros _. rewrite (aset_nth N F3), (aset_nth (S (bn br)) E2), !Nat.eqb_refl. reflexivity.
  - exists c. rewrite (aget_aset (S (bn br)) E2), Nat.eqb_refl. reflexivity.
Qed.

Lemma hrel_upd hx h B i br b : hrel hx h B -> nrel br b -> hrel (set_branch hx i br) h (upd B i (Some b)).
Proof.
  intros (H1 & H2 & H3 & H4 & H5) R. unfold hrel. cbn [set_branch hl hnx hpv hfresh hb]. splits; auto.
  intros j. unfold upd. destruct (j =? i); [exact R|apply H5].
Qed.

Lemma node_rel hx h B c : hrel hx h B -> forall i hx', rec_node N hx c = Ok (i, hx') ->
  exists h' B', bh_node N h B c = Ok (i, h', B') /\ hrel hx' h' B'.
Proof.
  intros HR i hx'. unfold rec_node, bh_node. cbn [new_branch fresh]. pose proof HR as (H1 & H2 & H3 & H4 & H5).
  destruct (empty_brep N) as (Hn & LK & LC & _).
  destruct (@aset_ok _ (bc (empty_branch N)) 0 c) as (cs & E); [lia|]. rewrite E. cbn [bind]. intros [= <- <-].
  change (anew (S N)) with (bc (empty_branch N)). rewrite E. cbn [bind]. rewrite H4. do 2 eexists. split; [reflexivity|].
  unfold hrel. cbn [set_branch hl hnx hpv hfresh hb]. splits; auto. intros j. unfold upd. destruct (j =? hfresh hx); [|apply H5].
  unfold orel, nrel. cbn [bn bk bc bbits bbk bbc]. rewrite (aset_length E). splits; auto; try lia.
  - now rewrite Nat.sub_0_r.
  - intros _. rewrite (aset_nth N E). destruct (Nat.eqb_spec N 0); [lia|]. cbn [empty_branch bc]. unfold anew. apply nth_error_repeat. lia.
  - exists c. rewrite (aget_aset 0 E). reflexivity.
Qed.

Lemma getbb_rel hx h B i br : hrel hx h B -> getb hx i = Ok br -> exists b, getbb B i = Ok b /\ nrel br b.
Proof.
  intros (_ & _ & _ & _ & H) E. unfold getb in E. specialize (H i). destruct (hb hx i) as [br'|]; [|discriminate]. injection E as <-.
  unfold getbb. destruct (B i) as [b|]; [|contradiction H]. exists b. auto.
Qed.

Lemma bh_rec_branch_1 h B id lf : bh_rec_branch N O h B 1 id lf =
  do b <- getbb B id;
  do l <- getl h lf; do key <- lo_minkey O l;
  if count_bits (bbits b) =? N then do x <- bh_node N h B lf; let '(i, h1, B1) := x in Ok (h1, B1, Some (Split key id i))
  else do b' <- bh_append N b key lf; Ok (h, upd B id (Some b'), None).
Proof. reflexivity. Qed.
Lemma bh_rec_branch_2 h B d id lf : bh_rec_branch N O h B (S (S d)) id lf =
  do b <- getbb B id;
  do c <- aget (bbc b) (if count_bits (bbits b) =? 0 then 0 else N);
  do r <- bh_rec_branch N O h B (S d) c lf;
  match r with
  | (h1, B1, None) => Ok (h1, B1, None)
  | (h1, B1, Some si) =>
    do b1 <- getbb B1 id;
    if count_bits (bbits b) =? N then
      do x <- bh_node N h1 B1 (sright si); let '(i, h2, B2) := x in Ok (h2, B2, Some (Split (skey si) id i))
    else do b' <- bh_append N b1 (skey si) (sright si); Ok (h1, upd B1 id (Some b'), None)
  end.
Proof. reflexivity. Qed.

Lemma append_sim hx h B id br b key c hx' : hrel hx h B -> getb hx id = Ok br -> nrel br b -> bn br <> N ->
  rec_append hx id key c = Ok hx' -> exists b', bh_append N b key c = Ok b' /\ hrel hx' h (upd B id (Some b')).
Proof.
  intros HR E R NE. unfold rec_append. rewrite E. cbn [bind].
  destruct (aset (bk br) (bn br) key) as [ks| |] eqn:E1; try discriminate. cbn [bind].
  destruct (aset (bc br) (S (bn br)) c) as [cs| |] eqn:E2; try discriminate. cbn [bind]. intros [= <-].
  destruct (append_rel R NE E1 E2) as (b' & E3 & R'). exists b'. split; [exact E3|]. apply hrel_upd; auto.
Qed.

Lemma rec_branch_sim d : forall m hx g lo i l x v es h B hx' r, wf m (S d) lo None g -> binv N hx [g] -> hl hx i = Some l -> rep l ((x, v) :: es) ->
  alt x (keys (ents [g])) -> sorted ((x, v) :: es) -> minL <= S (length es) <= M -> hrel hx h B ->
  rec_branch N O false hx (S d) (gid g) i = Ok (hx', r) ->
  exists h' B', bh_rec_branch N O h B (S d) (gid g) i = Ok (h', B', r) /\ hrel hx' h' B'.
Proof.
  induction d as [|d IH]; intros m hx g lo i l x v es h B hx' r W BI Hl LR AL SO LE HR E.
  - rewrite rec_branch_1 in E. rewrite bh_rec_branch_1. destruct (getb hx (gid g)) as [br| |] eqn:Eb; try discriminate E. cbn [bind] in E.
    destruct (getbb_rel HR Eb) as (b & -> & R). cbn [bind]. rewrite (nrel_count R).
    unfold getl in *. destruct HR as (H1 & HR'). rewrite H1. rewrite Hl in *. cbn [of_opt bind] in *. assert (HR := conj H1 HR' : hrel hx h B).
    rewrite (MK LR) in *. cbn [bind] in *. destruct (Nat.eqb_spec (bn br) N) as [EN|EN].
    + destruct (rec_node N hx i) as [[j h2]| |] eqn:En; try discriminate E. cbn [bind fst snd] in E. injection E as <- <-.
      destruct (node_rel HR En) as (h' & B' & -> & HR2). cbn [bind]. eauto.
    + destruct (rec_append hx (gid g) x i) as [h2| |] eqn:Ea; try discriminate E. cbn [bind] in E. injection E as <- <-.
      destruct (append_sim HR Eb R EN Ea) as (b' & -> & HR2). cbn [bind]. eauto.
  - rewrite rec_branch_2 in E. rewrite bh_rec_branch_2. destruct (getb hx (gid g)) as [br| |] eqn:Eb; try discriminate E. cbn [bind] in E.
    destruct (getbb_rel HR Eb) as (b & -> & R). cbn [bind]. rewrite (nrel_count R).
    destruct g as [|id ks cs]; [contradiction W|]. destruct W as [Hm K]. apply binv_GB in BI as (BC & NI & LT & br0 & Hb & BR).
    cbn [fst snd gid] in *. assert (br0 = br) by (unfold getb in Eb; rewrite Hb in Eb; now injection Eb). subst br0.
    destruct (kids_last K) as (CA & c & -> & LA & K1 & K2 & K3).
    assert (Ec : aget (bc br) (bn br) = Ok (gid c)).
    { rewrite map_app in BR. cbn [map] in BR. rewrite (proj1 BR), <- LA, <- (map_length (@gid V)).
      apply (brep_kid BR). rewrite nth_error_app2 by lia. rewrite Nat.sub_diag. reflexivity. }
    rewrite Ec in E. cbn [bind] in E.
    assert (Ec' : aget (bbc b) (if bn br =? 0 then 0 else N) = Ok (gid c)).
    { apply aget_nth. apply aget_nth in Ec. destruct R as (_ & _ & _ & _ & _ & _ & _ & RC & _ & RN & _).
      destruct (Nat.eqb_spec (bn br) 0) as [E0|E0]; [|rewrite RN by lia; exact Ec]. rewrite RC by lia. rewrite E0 in Ec. exact Ec. }
    rewrite Ec'. cbn [bind]. apply binv_app in BC as (BA & Bc & BD).
    rewrite ents_GB, ents_app in AL. unfold alt in AL. rewrite keys_app in AL. apply Forall_app in AL as [AL1 AL2].
    destruct (rec_branch N O false hx (S d) (gid c) i) as [[h1 r1]| |] eqn:Er; try discriminate E. cbn [bind] in E.
    destruct (IH _ hx c _ i l x v es h B h1 r1 K3 Bc Hl LR AL2 SO LE HR Er) as (h1' & B1 & -> & HR1). cbn [bind].
    destruct (@rec_branch_ok leaf V N M O rep minL MK HN HL false d _ hx c _ i l x v es K3 Bc Hl LR AL2 SO LE) as (h1x & r1x & Erx & FR & _).
    rewrite Er in Erx. injection Erx as <- <-.
    destruct r1 as [si|].
    + assert (Eb1 : getb h1 id = Ok br).
      { unfold getb. destruct FR as (_ & _ & _ & _ & FR). rewrite FR; [now rewrite Hb|exact LT|].
        intros Hi. apply NI. rewrite bids_app. apply in_or_app. auto. }
      rewrite Eb1 in E. cbn [bind] in E. destruct (getbb_rel HR1 Eb1) as (b1 & -> & R1). cbn [bind].
      destruct (Nat.eqb_spec (bn br) N) as [EN|EN].
      * destruct (rec_node N h1 (sright si)) as [[j h2]| |] eqn:En; try discriminate E. cbn [bind fst snd] in E. injection E as <- <-.
        destruct (node_rel HR1 En) as (h' & B' & -> & HR2). cbn [bind]. eauto.
      * destruct (rec_append h1 id (skey si) (sright si)) as [h2| |] eqn:Ea; try discriminate E. cbn [bind] in E. injection E as <- <-.
        destruct (append_sim HR1 Eb1 R1 EN Ea) as (b' & -> & HR2). cbn [bind]. eauto.
    + injection E as <- <-. eauto.
Qed.

Definition trel (tx : tree leaf) (tr : btree V) : Prop :=
  hrel (th tx) (bth tr) (btb tr) /\ troot tx = broot tr /\ tdepth tx = bdepth tr.

Lemma root_rel hx h B si : hrel hx h B -> forall ks cs cs', aset (bk (empty_branch N)) 0 (skey si) = Ok ks ->
  aset (bc (empty_branch N)) 0 (sleft si) = Ok cs -> aset cs 1 (sright si) = Ok cs' ->
  exists b, (do ks <- aset (anew N) 0 (skey si); do cs <- aset (anew (S N)) 0 (sleft si); do cs' <- aset cs N (sright si);
    do bs <- of_opt (lset (repeat false N) 0 true); Ok (BBranch bs ks cs')) = Ok b /\ nrel (Branch 1 ks cs') b.
Proof.
  intros HR ks cs cs' E1 E2 E3. destruct (empty_brep N) as (_ & LK & LC & _).
  change (anew N) with (bk (empty_branch N)). change (anew (S N)) with (bc (empty_branch N)). rewrite E1. cbn [bind]. rewrite E2. cbn [bind].
  pose proof (aset_length E2) as L2. rewrite LC in L2.
  destruct (@aset_ok _ cs N (sright si)) as (c2 & F); [lia|]. rewrite F. cbn [bind].
  pose proof (@lset_lin 0 N ltac:(lia)) as EL. cbn [repeat app] in EL. rewrite EL. cbn [of_opt bind]. eexists. split; [reflexivity|].
  unfold nrel. cbn [bn bk bc bbits bbk bbc]. rewrite (aset_length E1), (aset_length E3), (aset_length F). splits; auto; try lia.
  - intros i Hi. rewrite (aset_nth i F), (aset_nth i E3). destruct (Nat.eqb_spec i N), (Nat.eqb_spec i 1); auto; lia.
  - intros _. rewrite (aset_nth N F), (aset_nth 1 E3), Nat.eqb_refl. reflexivity.
  - eexists. rewrite (aget_aset 1 E3). reflexivity.
Qed.

Lemma rec_insert_sim m tx tr g i l x v es tx' : trel tx tr -> rinvm N M minL m tx g -> hl (th tx) i = Some l -> rep l ((x, v) :: es) ->
  alt x (keys (ents [g])) -> sorted ((x, v) :: es) -> minL <= S (length es) <= M ->
  rec_insert N O false tx i = Ok tx' -> exists tr', bh_rec_insert N O tr i = Ok tr' /\ trel tx' tr'.
Proof.
  intros (HR & E1 & E2) (Eg & (d & Ed) & W & BI) Hl LR AL SO LE E. destruct tx as [hx rx dx], tr as [h B r dp].
  cbn [th troot tdepth bth btb broot bdepth] in *. subst dx r dp. unfold rec_insert, bh_rec_insert in *.
  cbn [th troot tdepth bth btb broot bdepth] in *. rewrite <- Eg in *.
  destruct (rec_branch N O false hx (S d) (gid g) i) as [[h1 r1]| |] eqn:Er; try discriminate E. cbn [bind] in E.
  destruct (rec_branch_sim W BI Hl LR AL SO LE HR Er) as (h' & B' & -> & HR1). cbn [bind]. destruct r1 as [si|].
  - cbn [new_branch fresh] in *.
    destruct (aset (bk (empty_branch N)) 0 (skey si)) as [ks| |] eqn:F1; try discriminate E. cbn [bind] in E.
    destruct (aset (bc (empty_branch N)) 0 (sleft si)) as [cs| |] eqn:F2; try discriminate E. cbn [bind] in E.
    destruct (aset cs 1 (sright si)) as [cs'| |] eqn:F3; try discriminate E. cbn [bind] in E. injection E as <-.
    destruct (root_rel HR1 F1 F2 F3) as (b & Eb & Rb).
    destruct (aset (anew N) 0 (skey si)); try discriminate Eb. cbn [bind] in Eb |- *.
    destruct (aset (anew (S N)) 0 (sleft si)); try discriminate Eb. cbn [bind] in Eb |- *.
    destruct (aset a0 N (sright si)); try discriminate Eb. cbn [bind] in Eb |- *.
    destruct (lset (repeat false N) 0 true); try discriminate Eb. cbn [of_opt bind] in Eb |- *. injection Eb as <-.
    destruct HR1 as (G1 & G2 & G3 & G4 & G5). eexists. split; [reflexivity|]. unfold trel. cbn [th troot tdepth bth btb broot bdepth].
    splits; auto. unfold hrel. cbn [set_branch hl hnx hpv hfresh hb]. splits; auto. rewrite G4. intros j. unfold upd.
    destruct (j =? hfresh h1); [exact Rb|apply G5].
  - injection E as <-. eexists. split; [reflexivity|]. unfold trel. cbn [th troot tdepth bth btb broot bdepth]. auto.
Qed.

Lemma rec_chain_sim m : m <= 1 -> forall ls tx tr g p fuel tx', trel tx tr -> rinvm N M minL m tx g -> Forall (lok rep (th tx)) ls -> seg (th tx) p (map fst ls) None ->
  sorted (ents [g] ++ flat_map snd ls) -> Forall (fun q => minL <= length (snd q) <= M) ls -> length ls < fuel ->
  rec_chain N O false fuel tx (hbd (map fst ls) None) = Ok tx' ->
  exists tr', bh_rec_chain N O fuel tr (hbd (map fst ls) None) = Ok tr' /\ trel tx' tr'.
Proof.
  intros Hm. induction ls as [|[i es] ls IH]; intros tx tr g p fuel tx' TR R F S SO FL Hf E; cbn [map hbd hd rec_chain bh_rec_chain fst] in *.
  - destruct fuel; [lia|]. injection E as <-. exists tr. auto.
  - cbn [length] in Hf. destruct fuel as [|fuel]; [lia|]. cbn [rec_chain bh_rec_chain map hd] in *.
    apply Forall_cons_iff in F as [(l & Hl & LR) F]. apply Forall_cons_iff in FL as [LE FL]. cbn [fst snd] in *.
    cbn [map seg fst] in S. destruct S as (S1 & S2 & S3). cbn [flat_map snd] in SO.
    destruct es as [|[x v] es]; [cbn [length] in LE; lia|].
    pose proof SO as SO'. apply sorted_app in SO' as (SO1 & SO2 & SO3). apply sorted_app in SO2 as (SO4 & _ & _).
    assert (AL : alt x (keys (ents [g]))).
    { unfold alt. rewrite Forall_forall. intros y Hy. apply SO3; auto. rewrite keys_app. apply in_or_app. left. left. reflexivity. }
    destruct (@rec_insert_ok leaf V N M O rep minL MK HN HL false m tx g i l x v es Hm R Hl LR AL SO4 LE) as (t1 & g1 & E1 & R1 & LV & _ & (Q1 & Q2 & Q3 & Q4)).
    rewrite E1 in E. cbn [bind] in E. rewrite Q2, S2 in E.
    destruct (rec_insert_sim TR R Hl LR AL SO4 LE E1) as (tr1 & -> & TR1). cbn [bind].
    assert (EX : hnx (bth tr1) i = hbd (map fst ls) None).
    { destruct TR1 as ((_ & X & _) & _). now rewrite X, Q2, S2. }
    rewrite EX. eapply (IH t1 tr1 g1 (Some i) fuel); eauto.
    + eapply lok_frame; [|exact F]. now rewrite Q1.
    + eapply seg_frame; [|exact S3]. intros j _. now rewrite Q2, Q3.
    + unfold ents. rewrite LV, flat_map_app. cbn [flat_map snd]. rewrite app_nil_r, <- app_assoc. exact SO.
    + lia.
Qed.

(** ** recover() *)
Lemma crash_rel h G : hrel (crash (gh h G)) h (fun _ => None).
Proof. unfold hrel, crash, gh. cbn [hl hnx hpv hfresh hb]. splits; auto. intros i. exact I. Qed.

Lemma recover_sim f h G r d g tx : gid g = r -> wf (rmin d) d None None g -> inv N rep (gh h G) [] [g] [] ->
  hd_error (lids [g]) = Some f -> recover N O false (gh h G) f = Ok tx ->
  exists tr, bh_recover N O h f = Ok tr /\ trel tx tr.
Proof.
  intros Eg W IV Ef E. unfold recover in E. cbv zeta in E.
  unfold lids in Ef. destruct (lvs [g]) as [|[i0 es0] ls] eqn:EL; [discriminate Ef|]. cbn [map fst hd_error] in Ef. injection Ef as ->.
  pose proof (inv_l IV) as IL. rewrite EL in IL. pose proof (inv_seg IV) as IS. unfold lids in IS. rewrite app_nil_r, EL in IS.
  cbn [app map fst seg] in IS. destruct IS as (S1 & S2 & S3).
  pose proof (Forall_inv IL) as (l0 & Hl0 & LR0). cbn [fst snd] in Hl0, LR0. apply Forall_inv_tail in IL.
  pose proof (inv_nd IV) as ND. pose proof (inv_lt IV) as LT. unfold lids in ND, LT. rewrite app_nil_r, EL in ND, LT. cbn [app map fst] in ND, LT.
  pose proof (ents_sorted W) as SO. unfold ents in SO. rewrite EL in SO. cbn [flat_map snd] in SO.
  unfold getl in E. change (hl (crash (gh h G)) f) with (hl (gh h G) f) in E. change (hnx (crash (gh h G)) f) with (hnx (gh h G) f) in E.
  rewrite Hl0 in E. cbn [of_opt bind] in E. unfold bh_recover. change (hnx (gh h G) f) with (hnx h f) in E, S2. rewrite S2 in *.
  destruct ls as [|[i1 es1] ls]; cbn [map hbd hd fst] in E |- *.
  - injection E as <-. eexists. split; [reflexivity|]. unfold trel. cbn [th troot tdepth bth btb broot bdepth]. splits; auto. apply crash_rel.
  - destruct d; [destruct g; [discriminate EL|contradiction W]|].
    pose proof (wf_leaf_sizes W (or_intror (Nat.neq_succ_0 d))) as FL. rewrite EL in FL. pose proof (Forall_inv FL) as LE0. cbn [snd] in LE0.
    apply Forall_inv_tail in FL.
    destruct (rec_node N (crash (gh h G)) f) as [[j h1]| |] eqn:En; try discriminate E. cbn [bind fst snd] in E.
    destruct (node_rel (crash_rel h G) En) as (h' & B' & -> & HR). cbn [bind].
    destruct (@rec_node_ok leaf N (crash (gh h G)) f) as (b0 & E0 & BR0).
    rewrite En in E0. injection E0 as -> ->.
    set (h1 := set_branch _ _ b0) in *.
    set (G0 := GB (hfresh (crash (gh h G))) [] [GL f es0] : gt).
    assert (SO0 : sorted es0) by (apply sorted_app in SO; tauto).
    assert (R0 : rinvm N M minL 0 (Tree h1 (hfresh (crash (gh h G))) 1) G0).
    { unfold rinvm, G0. cbn [troot tdepth th gid]. splits; auto; [eauto| |].
      - split; [cbn [length]; lia|]. cbn [kids]. split; [exact I|]. split; [exact SO0|]. split; [|cbn [mn]; lia].
        rewrite Forall_forall. intros y Hy. split; exact I.
      - apply binv_GB. splits.
        + apply binv_GL.
        + rewrite bids_GL. intros [].
        + unfold h1. cbn [set_branch new_branch snd hfresh crash gh]. lia.
        + exists b0. unfold h1. cbn [set_branch hb fst snd]. rewrite upd_same'. auto. }
    assert (LEN : length ((i1, es1) :: ls) < S (hfresh (crash (gh h G)))).
    { pose proof (NoDup_bound HN (Nat.le_0_l _) ND LT) as Q. cbn [length map] in Q. rewrite map_length in Q. cbn [length].
      change (hfresh (crash (gh h G))) with (hfresh (gh h G)). lia. }
    assert (TR0 : trel (Tree h1 (hfresh (crash (gh h G))) 1) (BTree h' B' (hfresh (crash (gh h G))) 1)).
    { unfold trel. cbn [th troot tdepth bth btb broot bdepth]. auto. }
    pose proof (@rec_chain_sim 0 (Nat.le_0_l _) ((i1, es1) :: ls) _ _ G0 (Some f) (S (hfresh (crash (gh h G)))) tx TR0 R0) as Q.
    cbn [map hbd hd fst] in Q. apply Q; auto.
    + eapply seg_frame; [|exact S3]. intros j _. split; reflexivity.
    + replace (ents [G0]) with es0; [exact SO|]. unfold G0. rewrite ents_GB, ents_GL. reflexivity.
Qed.

(** ** What a rebuilt node looks like to the search *)
Lemma F2_nth {A B} (R : A -> B -> Prop) : forall a b, length a = length b ->
  (forall i x y, nth_error a i = Some x -> nth_error b i = Some y -> R x y) -> Forall2 R a b.
Proof.
  induction a as [|x a IH]; intros [|y b] HL H; cbn [length] in HL; try lia; constructor.
  - apply (H 0); reflexivity.
  - apply IH; [lia|]. intros i. apply (H (S i)).
Qed.

Lemma nrel_bbrep br b ks cs : nrel br b -> brep N br ks cs -> length cs = S (length ks) -> ssorted ks -> Forall (bkok t) ks -> ks <> [] -> bbrep t N b ks cs.
Proof.
  intros (Hn & L1 & L2 & L3 & L4 & Eb & HK & HCh & H0 & Hl & _) (En & _ & _ & [Rk EK] & [Rc EC]) LCS SK FK NE.
  assert (LP : 0 < length ks) by (destruct ks; [congruence|cbn [length]; lia]).
  exists (seq 0 (length ks)). unfold brepp. splits; auto.
  - rewrite Eb, app_length, !repeat_length. lia.
  - apply seq_NoDup.
  - intros i. rewrite in_seq, Eb, nth_repeat_true, En. destruct (Nat.ltb_spec i (length ks)); [split; [auto|lia]|].
    destruct (i <? length ks + (N - length ks)); split; try lia; discriminate.
  - apply F2_nth; [now rewrite seq_length|]. intros i x y Hx Hy. apply nth_error_seq_inv in Hx as [-> Hi]; cbn [Nat.add].
    unfold kat. rewrite HK by lia. rewrite EK, nth_error_app1 by (rewrite map_length; lia). rewrite nth_error_map, Hy. reflexivity.
  - apply F2_nth; [rewrite app_length, seq_length; cbn [length]; lia|]. intros i x y Hx Hy.
    assert (HC : nth_error (bc br) i = Some (Some y)).
    { rewrite EC, nth_error_app1 by (rewrite map_length; apply nth_error_Some; congruence). rewrite nth_error_map, Hy. reflexivity. }
    unfold cat. destruct (Nat.lt_ge_cases i (length ks)) as [Hi|Hi].
    + rewrite nth_error_app1 in Hx by (rewrite seq_length; lia). apply nth_error_seq_inv in Hx as [-> _]; cbn [Nat.add]. rewrite HCh by lia. exact HC.
    + assert (i < length (seq 0 (length ks) ++ [N])) by (apply nth_error_Some; congruence). rewrite app_length, seq_length in H. cbn [length] in H.
      assert (i = length ks) by lia. subst i. rewrite nth_error_app2, seq_length, Nat.sub_diag in Hx by (rewrite seq_length; lia).
      injection Hx as <-. rewrite Hl by lia. rewrite En. exact HC.
Qed.
Lemma nrel_bbsp br b ks c cs : nrel br b -> brep N br ks (c :: cs) -> bbsp b ks (c :: cs).
Proof.
  intros (Hn & L1 & L2 & L3 & L4 & Eb & HK & HCh & H0 & Hl & _) (En & _ & _ & [Rk EK] & [Rc EC]). split.
  - unfold cat. rewrite HCh by lia. rewrite EC. reflexivity.
  - destruct ks as [|k ks]; [exact I|]. cbn [length] in En. split.
    + unfold kat. rewrite HK by lia. rewrite EK. reflexivity.
    + rewrite Eb, nth_repeat_true. destruct (Nat.ltb_spec 0 (bn br)); [reflexivity|lia].
Qed.

(** A node with a single child sends every key to position N, where there is nothing. *)
Lemma nrel_empty br b cs k : nrel br b -> brep N br [] cs -> bb_pos t N b k = Ok N /\ aget (bbc b) N = UB.
Proof.
  intros (Hn & L1 & L2 & L3 & L4 & Eb & HK & HCh & H0 & Hl & _) (En & _). cbn [length] in En. rewrite En in *. split.
  - assert (ND : forall i x, ~ RankProofs.live (bbk b) (bbits b) i x).
    { intros i x [HB _]. rewrite Eb, nth_repeat_true in HB. destruct (Nat.ltb_spec i 0); [lia|]. destruct (i <? 0 + (N - 0)); discriminate. }
    destruct (@findMinKeyPosGreaterThan_ok t (bbk b) (bbits b) N k) as (p & E & HP).
    + unfold bits_ok. splits; auto; [rewrite Eb, app_length, !repeat_length; lia|]. intros i Hi.
      rewrite Eb, nth_repeat_true in Hi. destruct (Nat.ltb_spec i 0); [lia|]. destruct (i <? 0 + (N - 0)); discriminate.
    + intros i x Hx. now apply ND in Hx.
    + unfold bb_pos. rewrite E. destruct HP as [(m & Hm & _)|[-> _]]; [now apply ND in Hm|reflexivity].
  - unfold aget. rewrite H0 by reflexivity. reflexivity.
Qed.

(** ** Separators lie between stored keys *)
Lemma kids_sep d : forall ks lo (cs : list gt) hi (k : Z), kids (wf (mn minL 0 d) d) lo ks cs hi -> In k ks ->
  exists x y, In x (keys (ents cs)) /\ In y (keys (ents cs)) /\ (x <= k <= y)%Z.
Proof.
  assert (NE : forall lo hi g, wf (mn minL 0 d) d lo hi g -> exists x, In x (keys (ents [g]))).
  { intros lo hi g W. assert (Hd : mn minL 0 d = 0 -> d <> 0) by (pose proof HL; destruct d; cbn [mn]; lia).
    pose proof (wf_nonempty HL Hd W) as H. destruct (ents [g]) as [|[x v] l]; [congruence|]. exists x. left. reflexivity. }
  assert (BD : forall lo hi g, wf (mn minL 0 d) d lo hi g -> Forall (inb lo hi) (keys (ents [g]))).
  { intros lo hi g W. apply (proj2 (wf_okc W)). }
  induction ks as [|k0 ks IH]; intros lo cs hi k K Hk; [destruct Hk|].
  destruct cs as [|c cs]; [contradiction K|]. destruct K as (B1 & Wc & K). rewrite ents_cons, keys_app.
  destruct Hk as [->|Hk].
  - destruct (NE _ _ _ Wc) as (x & Hx). pose proof (BD _ _ _ Wc) as Bx. rewrite Forall_forall in Bx. apply Bx in Hx as Hx'.
    assert (exists y, In y (keys (ents cs)) /\ (k <= y)%Z) as (y & Hy & Hky).
    { destruct cs as [|c2 cs]; [destruct ks; contradiction K|]. rewrite ents_cons, keys_app.
      assert (exists h2, wf (mn minL 0 d) d (Some k) h2 c2) as (h2 & W2).
      { destruct ks as [|k2 ks]; cbn [kids] in K; [|destruct K as (_ & K & _); eauto]. destruct cs; [destruct K; eauto|contradiction K]. }
      destruct (NE _ _ _ W2) as (y & Hy). exists y. split; [apply in_or_app; auto|].
      pose proof (BD _ _ _ W2) as By. rewrite Forall_forall in By. apply By in Hy. destruct Hy as [Hy _]. exact Hy. }
    exists x, y. splits; try (apply in_or_app; auto); auto. destruct Hx' as [_ Hx']. cbn [hib] in Hx'. lia.
  - destruct (IH _ _ _ _ K Hk) as (x & y & Hx & Hy & H). exists x, y. splits; try (apply in_or_app; auto); lia.
Qed.
Lemma kids_sep_kok d ks lo (cs : list gt) hi : kids (wf (mn minL 0 d) d) lo ks cs hi -> Forall (bkok t) (keys (ents cs)) -> Forall (bkok t) ks.
Proof.
  intros K F. rewrite Forall_forall in *. intros k Hk. destruct (kids_sep K Hk) as (x & y & Hx & Hy & H).
  apply F in Hx, Hy. unfold bkok, kt_in in *. lia.
Qed.

(** ** The number of leaves decides *)
Lemma rsh_bound d : forall m lo hi g n, wf m d lo hi g -> rsh N d g n -> 1 <= n <= S N ^ d.
Proof.
  induction d as [|d IH]; intros m lo hi [i es|i ks cs] n W R; try contradiction W; cbn [rsh] in R.
  - cbn [Nat.pow]. lia.
  - destruct W as [Hm K]. destruct R as (CA & c & q & -> & LC & _ & Rc & ->).
    destruct (kids_mono K (c := c)) as (x & y & _ & Wc); [apply in_or_app; simpl; auto|].
    apply (IH _ _ _ _ _ Wc) in Rc. cbn [Nat.pow]. nia.
Qed.

Definition digit (n j : nat) := (n / S N ^ j) mod S N.
Lemma digit_top a r d : r < S N ^ d -> a <= N -> digit (a * S N ^ d + r) d = a.
Proof.
  intros Hr Ha. unfold digit. rewrite Nat.div_add_l, (Nat.div_small r) by lia. rewrite Nat.add_0_r. apply Nat.mod_small. lia.
Qed.
Lemma digit_low a r d j : j < d -> digit (a * S N ^ d + r) j = digit r j.
Proof.
  intros Hj. unfold digit. replace d with (j + S (d - S j)) by lia. rewrite Nat.pow_add_r, Nat.pow_succ_r'.
  set (P := S N ^ j). assert (P <> 0) by (apply Nat.pow_nonzero; lia). set (Y := S N ^ (d - S j)).
  replace (a * (P * (S N * Y)) + r) with (a * Y * S N * P + r) by lia. rewrite Nat.div_add_l by auto.
  rewrite Nat.add_comm, Nat.mod_add by lia. reflexivity.
Qed.

(** All nodes have a key. *)
Fixpoint full (d : nat) g : Prop :=
  match d, g with
  | 0, GL _ _ => True
  | S d', GB _ ks cs => ks <> [] /\ Forall (full d') cs
  | _, _ => False
  end.
Lemma perf_full d : forall g, perf N d g -> full d g.
Proof.
  induction d as [|d IH]; intros [i es|i ks cs] H; cbn [perf full] in *; try tauto. destruct H as [H1 H2]. split.
  - intros ->. cbn [length] in H1. lia.
  - eapply Forall_impl; [|exact H2]. auto.
Qed.
Lemma rsh_full d : forall m lo hi g n, wf m d lo hi g -> rsh N d g n -> (forall j, j < d -> digit (n - 1) j <> 0) -> full d g.
Proof.
  induction d as [|d IH]; intros m lo hi [i es|i ks cs] n W R H; try contradiction W; cbn [rsh full] in *; auto.
  destruct W as [Hm K]. destruct R as (CA & c & q & -> & LC & PA & Rc & ->).
  destruct (kids_mono K (c := c)) as (x & y & _ & Wc); [apply in_or_app; simpl; auto|].
  pose proof (rsh_bound Wc Rc) as Bq. replace (length CA * S N ^ d + q - 1) with (length CA * S N ^ d + (q - 1)) in H by lia. split.
  - intros ->. apply (H d); [lia|]. rewrite digit_top by lia. cbn [length] in LC. lia.
  - apply Forall_app. split; [eapply Forall_impl; [|exact PA]; intros; now apply perf_full|]. constructor; [|constructor].
    apply (IH _ _ _ _ _ Wc Rc). intros j Hj. rewrite <- (digit_low (length CA) (q - 1) Hj). apply H. lia.
Qed.
Lemma fits_digits m d lo hi g n : wf (rmin d) d lo hi g -> rsh N d g n -> m = n -> (rec_fits N m <-> forall j, j < d -> digit (n - 1) j <> 0).
Proof.
  intros W R ->. pose proof (rsh_bound W R) as Bn. unfold rec_fits. split; intros H j Hj.
  - apply H. destruct d as [|d]; [lia|]. destruct g as [|i ks cs]; [contradiction W|]. destruct W as [Hm K]. cbn [rmin] in Hm.
    cbn [rsh] in R. destruct R as (CA & c & q & -> & LC & _ & Rc & ->).
    destruct (kids_mono K (c := c)) as (x & y & _ & Wc); [apply in_or_app; simpl; auto|].
    pose proof (rsh_bound Wc Rc) as Bq. assert (S N ^ j <= S N ^ d) by (apply Nat.pow_le_mono_r; lia). nia.
  - apply H. destruct (Nat.lt_ge_cases j d) as [Hd|Hd]; auto. exfalso.
    assert (S N ^ d <= S N ^ j) by (apply Nat.pow_le_mono_r; lia). lia.
Qed.

Definition hrelx (hx : hp) (B : bmap) := forall i, orel (hb hx i) (B i).
Lemma bok_node hx B i ks cids : hrelx hx B -> bok N hx (i, (ks, cids)) -> exists br b, B i = Some b /\ nrel br b /\ brep N br ks cids.
Proof.
  intros HR (br & E & BR). cbn [fst snd] in *. specialize (HR i). rewrite E in HR. destruct (B i) as [b|]; [|contradiction HR].
  exists br, b. auto.
Qed.

Lemma rec_nok hx B d : forall m lo hi g, hrelx hx B -> wf m d lo hi g -> binv N hx [g] -> full d g -> Forall (bkok t) (keys (ents [g])) ->
  nok (bbrep t N) B [g].
Proof.
  induction d as [|d IH]; intros m lo hi [i es|i ks cs] HR W BI HF HK; try contradiction W.
  - constructor.
  - destruct W as [Hm K]. destruct HF as [NE HF]. apply binv_GB in BI as (BC & _ & _ & BO). apply nok_GB. rewrite ents_GB in HK. split.
    + destruct (bok_node HR BO) as (br & b & Eb & R & BR). exists b. split; [exact Eb|]. cbn [fst snd].
      apply (nrel_bbrep R BR); auto.
      * rewrite map_length. apply (kids_length K).
      * apply (proj1 (kids_sorted K)).
      * apply (kids_sep_kok K HK).
    + assert (HA : forall c, In c cs -> nok (bbrep t N) B [c]).
      { intros c Hc. destruct (kids_mono K Hc) as (x & y & _ & Wc). rewrite Forall_forall in HF.
        apply in_split in Hc as Hs. destruct Hs as (c1 & c2 & ->). change (c1 ++ c :: c2) with (c1 ++ [c] ++ c2) in *.
        apply binv_app in BC as (_ & BC & _). apply binv_app in BC as (BC & _ & _).
        rewrite !ents_app, !keys_app, !Forall_app in HK. eapply IH; eauto; tauto. }
      clear - HA. induction cs as [|c cs IH]; [constructor|]. change (c :: cs) with ([c] ++ cs). apply nok_app. split; [apply HA; simpl; auto|].
      apply IH. intros c' Hc. apply HA. simpl; auto.
Qed.

Lemma rec_spine hx B d : forall m lo hi g, hrelx hx B -> wf m d lo hi g -> binv N hx [g] -> spine bbsp B d g.
Proof.
  induction d as [|d IH]; intros m lo hi [i es|i ks cs] HR W BI; try contradiction W; cbn [spine]; auto.
  destruct W as [Hm K]. apply binv_GB in BI as (BC & _ & _ & BO). destruct cs as [|c cs]; [destruct ks; contradiction K|].
  destruct (bok_node HR BO) as (br & b & Eb & R & BR). split.
  - exists b. split; [exact Eb|]. cbn [map] in *. apply (nrel_bbsp R BR).
  - destruct (kids_mono K (c := c)) as (x & y & _ & Wc); [simpl; auto|]. change (c :: cs) with ([c] ++ cs) in BC.
    apply binv_app in BC as (BC & _ & _). eapply IH; eauto.
Qed.

(** With a zero digit, a key not below the stored ones is led to a node with a single child. *)
Lemma rec_lost hx B d : forall m lo g n k, hrelx hx B -> wf m d lo None g -> binv N hx [g] -> rsh N d g n -> Forall (bkok t) (keys (ents [g])) ->
  Forall (fun x => (x <= k)%Z) (keys (ents [g])) -> (exists j, j < d /\ digit (n - 1) j = 0) -> bt_find t N B d (gid g) k = UB.
Proof.
  induction d as [|d IH]; intros m lo [i es|i ks cs] n k HR W BI RS HK Hk (j & Hj & Hd); try contradiction W; [lia|].
  destruct W as [Hm K]. apply binv_GB in BI as (BC & _ & _ & BO). cbn [rsh] in RS. destruct RS as (CA & c & q & -> & LC & PA & Rc & ->).
  rewrite ents_GB in HK, Hk. destruct (bok_node HR BO) as (br & b & Eb & R & BR). cbn [bt_find gid]. unfold getbb. rewrite Eb. cbn [of_opt bind].
  destruct ks as [|k0 ks0].
  - destruct (nrel_empty k R BR) as [-> E2]. cbn [bind]. rewrite E2. reflexivity.
  - set (ks := k0 :: ks0) in *. destruct (kids_last K) as (CA' & c' & Ec & _ & _ & _ & Wc). apply app_inj_tail in Ec as [<- <-].
    assert (KK : Forall (bkok t) ks) by apply (kids_sep_kok K HK).
    assert (AL : ale k ks).
    { rewrite ale_in. intros z Hz. destruct (kids_sep K Hz) as (x & y & Hx & Hy & H). rewrite Forall_forall in Hk. apply Hk in Hy. lia. }
    assert (BB : bbrep t N b (ks ++ []) (map (@gid V) CA ++ gid c :: [])).
    { rewrite app_nil_r. rewrite map_app in BR. apply (nrel_bbrep R BR); auto; [|apply (proj1 (kids_sorted K))|discriminate].
      rewrite app_length, map_length. cbn [map length]. lia. }
    assert (AG : agt k []) by constructor.
    destruct (@bb_pos_ok t N Ht HN H64 b ks [] (map (@gid V) CA) (gid c) [] k BB) as (p & E1 & E2); auto; [now rewrite map_length|].
    rewrite E1. cbn [bind]. rewrite E2. cbn [bind].
    pose proof (rsh_bound Wc Rc) as Bq. replace (length CA * S N ^ d + q - 1) with (length CA * S N ^ d + (q - 1)) in Hd by lia.
    apply binv_app in BC as (_ & BC & _). rewrite ents_app, keys_app, Forall_app in HK, Hk.
    apply (IH _ _ _ _ _ HR Wc BC Rc); [tauto|tauto|]. exists j.
    destruct (Nat.eq_dec j d) as [->|Hne].
    + rewrite digit_top in Hd by lia. exfalso. unfold ks in LC. cbn [length] in LC. lia.
    + split; [lia|]. now rewrite digit_low in Hd by lia.
Qed.

(** ** One restart *)
Definition bhinv (tr : btree V) es := xinvf N M rep minL (bbrep t N) 0 (to_x tr) es.

Lemma chain_len_ok hx : forall ids p (fuel : nat), seg (L := leaf) hx p ids None -> length ids < fuel ->
  chain_len fuel (hnx hx) (hbd ids None) = length ids.
Proof.
  induction ids as [|i ids IH]; intros p fuel HS Hf.
  - destruct fuel; reflexivity.
  - cbn [seg] in HS. destruct HS as (_ & S2 & S3). destruct fuel as [|fuel]; [lia|]. cbn [length] in *. cbn [hbd hd map chain_len].
    rewrite S2. f_equal. eapply IH; eauto. lia.
Qed.

Lemma recover_core h G r d g : gid g = r -> wf (rmin d) d None None g -> inv N rep (gh h G) [] [g] [] -> hd_error (lids [g]) = Some 0 ->
  chain_len (S (hfresh h)) (hnx h) (Some 0) = length (lvs [g]) /\
  exists tr G' g', bh_recover N O h 0 = Ok tr /\ gid g' = broot tr /\ wf (rmin (bdepth tr)) (bdepth tr) None None g' /\
    inv N rep (gh (bth tr) G') [] [g'] [] /\ ents [g'] = ents [g] /\ hd_error (lids [g']) = Some 0 /\
    spine bbsp (btb tr) (bdepth tr) g' /\ Forall (bkok t) (keys (ents [g'])) /\
    (rec_fits N (length (lvs [g])) -> nok (bbrep t N) (btb tr) [g']) /\
    (~ rec_fits N (length (lvs [g])) -> forall k, Forall (fun x => (x <= k)%Z) (keys (ents [g'])) ->
       bt_find t N (btb tr) (bdepth tr) (broot tr) k = UB).
Proof.
  intros Eg W IV Ef. split.
  { pose proof (inv_seg IV) as IS. cbn [app] in IS. rewrite app_nil_r in IS.
    pose proof (chain_fuel HN (Nat.le_0_l _) IV) as CF. cbn [gh hfresh] in CF.
    replace (Some 0) with (hbd (lids [g]) None).
    - change (hnx h) with (hnx (gh h G)). rewrite (@chain_len_ok (gh h G) (lids [g]) None (S (hfresh h))); [now unfold lids; rewrite map_length|exact IS|].
      unfold lids. rewrite map_length. lia.
    - destruct (lids [g]); [discriminate|]. injection Ef as ->. reflexivity. }
  set (t0 := Tree (gh h G) r d).
  destruct (@recover_shape leaf V N M O rep minL MK HN HL 0 t0 g (ents [g])) as (tx & g' & E & (E1 & W' & I' & Ee & Ef') & LV & RS); auto.
  cbn [t0 th] in E. destruct (recover_sim Eg W IV Ef E) as (tr & Er & (HR & TR & TD)).
  assert (EH : gh (bth tr) (hb (th tx)) = th tx).
  { destruct HR as (H1 & H2 & H3 & H4 & _). unfold gh. rewrite H1, H2, H3, H4. destruct (th tx); reflexivity. }
  assert (HX : hrelx (th tx) (btb tr)) by (unfold hrelx; apply HR).
  assert (BI : binv N (th tx) [g']). { destruct I' as [? ? ? ? ? ? ? ?]. unfold binv. cbn [app] in *. rewrite ?app_nil_r in *. auto. }
  assert (KK : Forall (bkok t) (keys (ents [g']))).
  { unfold ents, keys. rewrite Forall_forall. intros k Hk. apply in_map_iff in Hk as ((k' & v) & <- & Hk). apply in_flat_map in Hk as ((i & es) & Hl & Hk).
    pose proof (inv_l I') as IL. rewrite Forall_forall in IL. apply IL in Hl. destruct Hl as (l & _ & HRep). cbn [fst snd] in *.
    apply rep_kok in HRep. rewrite Forall_forall in HRep. apply HRep. apply in_map_iff. exists (k', v). auto. }
  exists tr, (hb (th tx)), g'. rewrite EH, <- TR, <- TD. splits; auto.
  - eapply rec_spine; eauto.
  - intros HF. eapply rec_nok; eauto. eapply rsh_full; eauto. exact (proj1 (fits_digits W' RS eq_refl) HF).
  - intros HF k Hk. rewrite <- E1. eapply rec_lost; eauto.
    destruct (Exists_dec (fun j => digit (length (lvs [g]) - 1) j = 0) (seq 0 (tdepth tx)) (fun j => Nat.eq_dec _ 0)) as [Hx|Hx].
    + apply Exists_exists in Hx as (j & Hj & Hd). apply in_seq in Hj. exists j. split; [lia|auto].
    + exfalso. apply HF. apply (fits_digits W' RS eq_refl). intros j Hj Hd. apply Hx. apply Exists_exists. exists j. split; auto. apply in_seq. lia.
Qed.

Lemma bh_recover_ok tr es : bhinv tr es -> rec_fits N (chain_len (S (hfresh (bth tr))) (hnx (bth tr)) (Some 0)) ->
  exists tr', bh_recover N O (bth tr) 0 = Ok tr' /\ bhinv tr' es.
Proof.
  intros (G & g & E & W & IV & X & <- & F) HF. destruct (recover_core E W IV F) as (EC & tr' & G' & g' & E1 & E2 & W' & I' & Ee & Ef & _ & _ & HN1 & _).
  cbn [to_x xth xtb xroot xdepth] in *. rewrite EC in HF. exists tr'. split; [exact E1|]. exists G', g'. cbn [to_x xth xtb xroot xdepth]. splits; auto.
Qed.

(** Whatever the number of leaves, the leaves are found and read in order. *)
Lemma bh_recover_scan tr es : bhinv tr es -> exists tr' out, bh_recover N O (bth tr) 0 = Ok tr' /\ bg_scan O tr' = Ok out /\
  Permutation out es /\ in_runs M out.
Proof.
  intros (G & g & E & W & IV & X & <- & F). destruct (recover_core E W IV F) as (EC & tr' & G' & g' & E1 & E2 & W' & I' & Ee & Ef & SP & _).
  rewrite <- Ee. destruct (@x_scan_w leaf V bbranch N M O (bitq t N) rep minL (bkok t) (bbrep t N) bbsp (bkok t) LL (fun k H => H) (@bkok_mid t N M HN H64 HM) rep_kok HN
    (bit_laws Ht HN H64) (to_x tr') G' g' E2 W' I' SP) as (out & EO & HO). exists tr', out. auto.
Qed.

Lemma bh_recover_lost tr es k : bhinv tr es -> ~ rec_fits N (chain_len (S (hfresh (bth tr))) (hnx (bth tr)) (Some 0)) ->
  Forall (fun x => (x <= k)%Z) (keys es) -> exists tr', bh_recover N O (bth tr) 0 = Ok tr' /\ bg_lookup t N O tr' k = UB.
Proof.
  intros (G & g & E & W & IV & X & <- & F) HF Hk. destruct (recover_core E W IV F) as (EC & tr' & G' & g' & E1 & E2 & W' & I' & Ee & Ef & _ & _ & _ & HL1).
  cbn [to_x xth xtb xroot xdepth] in *. rewrite EC in HF. exists tr'. split; [exact E1|]. unfold bg_lookup.
  rewrite HL1; auto. now rewrite Ee.
Qed.

Lemma bh_insert_inv tr es k v : bkok t k -> bhinv tr es -> exists tr', bg_insert t N O tr k v = Ok tr' /\ bhinv tr' (ins k v es).
Proof.
  intros Kk H.
  destruct (@x_ins_f leaf V bbranch N M O (bitq t N) rep minL (bkok t) (bbrep t N) bbsp (bkok t) LL (fun k H => H) (@bkok_mid t N M HN H64 HM)
              rep_kok HN (bit_laws Ht HN H64) HL 0 (to_x tr) es k v Kk H) as (x & E & HI).
  rewrite <- bg_insert_x in E. destruct (bg_insert t N O tr k v) as [tr'| |]; cbn [bind] in E; try discriminate.
  injection E as <-. exists tr'. auto.
Qed.
Lemma bh_new_inv : bhinv (bg_new O) [].
Proof. exact (@xinvf_new leaf V bbranch N M O rep minL (bbrep t N) (bkok t) LL HN). Qed.
Lemma bhinv_btinv tr es : bhinv tr es -> btinv t N M rep tr es.
Proof. apply xinvf_xinv. Qed.
Lemma bh_get tr es k : bkok t k -> bhinv tr es -> bg_lookup t N O tr k = Ok (get k es).
Proof. intros Kk H. apply bhinv_btinv in H. eapply bg_lookup_ok; eauto. Qed.
Lemma bhinv_sorted tr es : bhinv tr es -> sorted es.
Proof. intros (G & g & _ & W & _ & _ & <- & _). eapply ents_sorted; eauto. Qed.
End Rec.

(** ** Histories of inserts and restarts *)
Definition leaf_count {V} (tr : btree V) : nat := chain_len (S (hfresh (bth tr))) (hnx (bth tr)) (Some 0).

Section Hist.
Variables (V : Type) (t : ktype) (N M : nat).
Hypothesis Ht : (1 <= kt_bits t <= 64)%Z.
Hypothesis HN : 2 <= N.
Hypothesis H64 : N mod 64 <> 0.
Hypothesis HM : 2 <= M.
Hypothesis HW : (N.of_nat M < W)%N.
Hypothesis HM64 : M mod 64 <> 0.
Notation O := (bh_ops V t M).
Notation inv := (bhinv t N M (bh_rep t M)).
Let LL := bh_leaf_laws V HM HW Ht HM64.

Definition ops_in (os : list (rop V)) : Prop := Forall (fun o => match o with RIns k _ => bkok t k | RRestart => True end) os.

Lemma bh_hist_app p q : forall tr : btree V, bh_hist t N M tr (p ++ q) = do tr' <- bh_hist t N M tr p; bh_hist t N M tr' q.
Proof.
  induction p as [|[k v|] p IH]; intros tr; cbn [app bh_hist bind]; auto.
  - destruct (bh_insert t N M tr k v); cbn [bind]; auto.
  - destruct (bh_recover N O (bth tr) 0); cbn [bind]; auto.
Qed.

Lemma bh_hist_inv os : forall tr es m, inv tr es -> (forall k, get k es = m k) -> ops_in os ->
  (forall p q tr', os = p ++ RRestart :: q -> bh_hist t N M tr p = Ok tr' -> rec_fits N (leaf_count tr')) ->
  exists tr' es', bh_hist t N M tr os = Ok tr' /\ inv tr' es' /\ forall k, get k es' = fold_left (@m_step V) (rops os) m k.
Proof.
  induction os as [|o os IH]; intros tr es m HI E HF HR; cbn [bh_hist rops flat_map].
  - exists tr, es. auto.
  - apply Forall_cons_iff in HF as [Ho HF]. destruct o as [k v|].
    + destruct (@bh_insert_inv V t N M Ht HN H64 HM O (bh_rep t M) LL (@bh_rep_kok V t M) tr es k v Ho HI) as (t1 & E1 & I1).
      unfold bh_insert. rewrite E1. cbn [bind app fold_left]. apply (IH t1 _ (m_step m (OpInsert k v)) I1); auto.
      * intros x. rewrite get_ins by (eapply bhinv_sorted; eauto). cbn [m_step]. unfold m_put. destruct (x =? k)%Z; auto.
      * intros p q tr' -> Ep. apply (HR (RIns k v :: p) q); [reflexivity|]. cbn [bh_hist]. unfold bh_insert. rewrite E1. exact Ep.
    + destruct (@bh_recover_ok V t N M Ht HN H64 HM O (bh_rep t M) (@bh_rep_kok V t M) (@bh_minkey_ok V t M HM HW HM64) tr es HI) as (t1 & E1 & I1).
      { apply (HR [] os tr); reflexivity. }
      rewrite E1. cbn [bind app]. apply (IH t1 es m I1); auto.
      intros p q tr' -> Ep. apply (HR (RRestart :: p) q); [reflexivity|]. cbn [bh_hist]. rewrite E1. exact Ep.
Qed.

(** Every restart of the history happens with a number of leaves that fits. *)
Definition restarts_fit (os : list (rop V)) : Prop :=
  forall p q tr, os = p ++ RRestart :: q -> bh_hist t N M (bh_new V t M) p = Ok tr -> rec_fits N (leaf_count tr).

Lemma bh_hist_ok os : ops_in os -> restarts_fit os ->
  exists tr es, bh_hist t N M (bh_new V t M) os = Ok tr /\ inv tr es /\ forall k, get k es = m_run (rops os) k.
Proof. intros HF HR. apply (@bh_hist_inv os (bh_new V t M) [] m_empty); auto. apply bh_new_inv; auto. Qed.

Lemma bh_hist_map os : ops_in os -> restarts_fit os ->
  exists tr, bh_hist t N M (bh_new V t M) os = Ok tr /\ forall k, bkok t k -> bh_lookup t N M tr k = Ok (m_run (rops os) k).
Proof.
  intros HF HR. destruct (bh_hist_ok HF HR) as (tr & es & E & HI & HG). exists tr. split; [exact E|]. intros k Kk. rewrite <- HG.
  eapply bh_get; eauto.
Qed.

Lemma bh_restart_scan os : ops_in os -> restarts_fit os ->
  exists tr out, bh_hist t N M (bh_new V t M) (os ++ [RRestart]) = Ok tr /\ bg_scan O tr = Ok out /\ enumerates (m_run (rops os)) out /\ in_runs M out.
Proof.
  intros HF HR. destruct (bh_hist_ok HF HR) as (tr & es & E & HI & HG).
  destruct (@bh_recover_scan V t N M Ht HN H64 HM O (bh_rep t M) LL (@bh_rep_kok V t M) (@bh_minkey_ok V t M HM HW HM64) tr es HI) as (tr' & out & E1 & E2 & HP & HU).
  exists tr', out. rewrite bh_hist_app, E. cbn [bind bh_hist]. rewrite E1. splits; auto.
  eapply enumerates_ext; [exact HG|]. apply perm_enumerates; auto. eapply bhinv_sorted; eauto.
Qed.

Lemma bh_restart_lost os tr k : ops_in os -> restarts_fit os -> bh_hist t N M (bh_new V t M) os = Ok tr -> ~ rec_fits N (leaf_count tr) ->
  (forall x, m_run (rops os) x <> None -> (x <= k)%Z) ->
  exists tr', bh_hist t N M (bh_new V t M) (os ++ [RRestart]) = Ok tr' /\ bh_lookup t N M tr' k = UB.
Proof.
  intros HF HR E NF Hk. destruct (bh_hist_ok HF HR) as (tr1 & es & E0 & HI & HG). rewrite E in E0. injection E0 as <-.
  destruct (@bh_recover_lost V t N M Ht HN H64 HM O (bh_rep t M) (@bh_rep_kok V t M) (@bh_minkey_ok V t M HM HW HM64) tr es k HI NF) as (tr' & E1 & E2).
  { rewrite Forall_forall. intros x Hx. apply Hk. rewrite <- HG. apply in_map_iff in Hx as ((x' & v) & <- & Hx). apply get_in in Hx; [cbn [fst]; congruence|]. eapply bhinv_sorted; eauto. }
  exists tr'. rewrite bh_hist_app, E. cbn [bind bh_hist]. rewrite E1. auto.
Qed.
End Hist.
