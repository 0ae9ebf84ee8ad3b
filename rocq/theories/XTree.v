(** Insertion, descent and scan of a B+-tree whose branch nodes are an abstract type with a few laws:
    shared by the trees with unsorted branch nodes (BitPBPTree, wBPTree).  The leaves and their chain
    are those of BTreeModel; [BTreeGhost] is reused by giving the unused branch map of the heap a
    sorted ghost copy of every branch node. *)
From Verif Require Import Base ArrLemmas MapSpec SortedList BTreeModel BTreeLaws BTreeBranch BTreeGhost BTreeInsert
  BTreeSpec BitTreeModel InsSpec.
Open Scope nat_scope.

Record brops (BR : Type) := BrOps {
  xo_pos : BR -> Z -> res nat;
  xo_child : BR -> nat -> res nat;
  xo_full : BR -> res bool;
  xo_split : BR -> Z -> res (BR * BR * Z);
  xo_add0 : BR -> nat -> split -> res BR;       (* without a split: the position is known *)
  xo_add1 : BR -> Z -> split -> res BR;         (* into one half after a split *)
  xo_root : split -> res BR;
  xo_first : BR -> res nat
}.

Section XModel.
Variables (L V BR : Type) (O : leafops L V) (Q : brops BR).
Notation hp := (heap L).
Notation bmap := (nat -> option BR).

Definition xget (B : bmap) (i : nat) : res BR := of_opt (B i).

Fixpoint x_find (B : bmap) (d id : nat) (key : Z) : res nat :=
  match d with
  | 0 => Ok id
  | S d' =>
    do b <- xget B id;
    do pos <- xo_pos Q b key;
    do c <- xo_child Q b pos;
    x_find B d' c key
  end.

Fixpoint x_insert (h : hp) (B : bmap) (d id : nat) (key : Z) (val : V) : res (hp * bmap * option split) :=
  match d with
  | 0 => do x <- insert_leaf O h id key val; Ok (fst x, B, snd x)
  | S d' =>
    do b <- xget B id;
    do pos <- xo_pos Q b key;
    do c <- xo_child Q b pos;
    do r <- x_insert h B d' c key val;
    match r with
    | (h1, B1, None) => Ok (h1, B1, None)
    | (h1, B1, Some si) =>
      do b1 <- xget B1 id;
      do f <- xo_full Q b1;
      if (f : bool) then
        do x <- xo_split Q b1 (skey si);
        let '(bl, br, sk) := x in
        let '(s, h2) := fresh h1 in
        if (key <? sk)%Z then
          do bl' <- xo_add1 Q bl key si;
          Ok (h2, upd (upd B1 s (Some br)) id (Some bl'), Some (Split sk id s))
        else
          do br' <- xo_add1 Q br key si;
          Ok (h2, upd (upd B1 s (Some br')) id (Some bl), Some (Split sk id s))
      else
        do b2 <- xo_add0 Q b1 pos si;
        Ok (h1, upd B1 id (Some b2), None)
    end
  end.

Record xtree := XTree { xth : hp; xtb : bmap; xroot : nat; xdepth : nat }.
Definition x_new : xtree := let '(i, h) := new_leaf (empty_heap L) (lo_new O) in XTree h (fun _ => None) i 0.
Definition x_ins (t : xtree) (key : Z) (val : V) : res xtree :=
  do r <- x_insert (xth t) (xtb t) (xdepth t) (xroot t) key val;
  match r with
  | (h1, B1, None) => Ok (XTree h1 B1 (xroot t) (xdepth t))
  | (h1, B1, Some si) =>
    let '(i, h2) := fresh h1 in
    do b <- xo_root Q si;
    Ok (XTree h2 (upd B1 i (Some b)) i (S (xdepth t)))
  end.
Definition x_lookup (t : xtree) (key : Z) : res (option V) :=
  do i <- x_find (xtb t) (xdepth t) (xroot t) key;
  do l <- getl (xth t) i;
  lo_lookup O l key.
Fixpoint x_first (B : bmap) (d id : nat) : res nat :=
  match d with
  | 0 => Ok id
  | S d' => do b <- xget B id; do c <- xo_first Q b; x_first B d' c
  end.
Definition x_scan (t : xtree) : res (list (Z * V)) :=
  do i <- x_first (xtb t) (xdepth t) (xroot t);
  scan_chain O (S (hfresh (xth t))) (xth t) (Some i).
End XModel.

Section XLaws.
Variables (BR : Type) (N : nat) (Q : brops BR) (kok : Z -> Prop).
Variable brepx : BR -> list Z -> list nat -> Prop.
Variable bsp : BR -> list Z -> list nat -> Prop.
(** The children of a node are in reading order of its keys; [bsp]: the first one is where a scan
    looks for it. *)
Record br_laws : Prop := {
  xl_len : forall b ks cs, brepx b ks cs -> length ks <= N /\ length cs = S (length ks) /\ Forall kok ks;
  xl_pos : forall b a bb CA c CB k, brepx b (a ++ bb) (CA ++ c :: CB) -> length CA = length a -> length CB = length bb ->
    ssorted (a ++ bb) -> ale k a -> agt k bb -> kok k ->
    exists p, xo_pos Q b k = Ok p /\ xo_child Q b p = Ok c /\
      (length (a ++ bb) < N -> forall s l r, kok s -> ssorted (a ++ s :: bb) ->
         exists b', xo_add0 Q b p (Split s l r) = Ok b' /\ brepx b' (a ++ s :: bb) (CA ++ l :: r :: CB) /\
           (a <> [] -> bsp b (a ++ bb) (CA ++ c :: CB) -> bsp b' (a ++ s :: bb) (CA ++ l :: r :: CB)));
  xl_add : forall b a bb CA c CB k s l r, brepx b (a ++ bb) (CA ++ c :: CB) -> length CA = length a -> length CB = length bb ->
    ale k a -> agt k bb -> kok k -> length (a ++ bb) < N -> kok s -> ssorted (a ++ s :: bb) ->
    exists b', xo_add1 Q b k (Split s l r) = Ok b' /\ brepx b' (a ++ s :: bb) (CA ++ l :: r :: CB) /\
      (a <> [] -> bsp b (a ++ bb) (CA ++ c :: CB) -> bsp b' (a ++ s :: bb) (CA ++ l :: r :: CB));
  xl_full : forall b ks cs, brepx b ks cs -> xo_full Q b = Ok (length ks =? N);
  xl_split : forall b ks cs s, brepx b ks cs -> length ks = N -> kok s -> ssorted ks ->
    exists a sk bb ca cb b1 b2, xo_split Q b s = Ok (b1, b2, sk) /\ ks = a ++ sk :: bb /\ cs = ca ++ cb /\
      length ca = S (length a) /\ brepx b1 a ca /\ brepx b2 bb cb /\ (bsp b ks cs -> bsp b1 a ca);
  xl_root : forall s l r, kok s ->
    exists b, xo_root Q (Split s l r) = Ok b /\ brepx b [s] [l; r] /\ bsp b [s] [l; r];
  xl_first : forall b ks c cs, bsp b ks (c :: cs) -> xo_first Q b = Ok c
}.
End XLaws.

Section XProofs.
Variables (L V BR : Type) (N M : nat) (O : leafops L V) (Q : brops BR).
Variable lrep : L -> list (Z * V) -> Prop.
Variable minL : nat.
Variable kok : Z -> Prop.
Variables (brepx bsp : BR -> list Z -> list nat -> Prop).
(** [ik]: the keys that may be inserted; [kok]: the keys that may be stored. *)
Variable ik : Z -> Prop.
Hypothesis LL : leaf_laws O M minL ik lrep.
Hypothesis ik_kok : forall k, ik k -> kok k.
Hypothesis kok_mid : forall x y z, kok x -> kok y -> (x <= z <= y)%Z -> kok z.
Hypothesis l_kok : forall l es, lrep l es -> Forall kok (keys es).
Hypothesis HN : 2 <= N.
Lemma HB0 : 0 <= (N + 1) / 2 - 1. Proof. lia. Qed.
Hypothesis BL : br_laws N Q kok brepx bsp.
Notation hp := (heap L).
Notation bmap := (nat -> option BR).
Notation gt := (gt V).
Notation wf := (wf N M minL 0).
Notation inv := (inv N lrep).
Notation upd_ok := (upd_ok N lrep).

Definition gh (h : hp) (G : nat -> option branch) : hp := Heap (hl h) G (hnx h) (hpv h) (hfresh h).

Definition canon (ks : list Z) (cs : list nat) : branch :=
  Branch (length ks) (map Some ks ++ repeat None (N - length ks)) (map Some cs ++ repeat None (S N - length cs)).
Lemma canon_brep ks cs : length ks <= N -> length cs = S (length ks) -> brep N (canon ks cs) ks cs.
Proof.
  clear - ks. intros H1 H2. unfold brep, canon; cbn [bn bk bc]. rewrite !app_length, !map_length, !repeat_length.
  splits; auto; try lia; eexists; reflexivity.
Qed.

Definition xok (B : bmap) (p : nat * (list Z * list nat)) := exists b, B (fst p) = Some b /\ brepx b (fst (snd p)) (snd (snd p)).
Definition nok (B : bmap) (gs : list gt) := Forall (xok B) (nds gs).

Lemma nok_app B a b : nok B (a ++ b) <-> nok B a /\ nok B b.
Proof. unfold nok. rewrite nds_app. apply Forall_app. Qed.
Lemma nok_GB B i ks cs : nok B [GB i ks cs] <-> xok B (i, (ks, map (@gid V) cs)) /\ nok B cs.
Proof. unfold nok. rewrite nds_GB. split; [intros H; inversion H; auto|intros [? ?]; constructor; auto]. Qed.
Lemma nok_frame B B' gs : (forall i, In i (bids gs) -> B' i = B i) -> nok B gs -> nok B' gs.
Proof.
  unfold nok. rewrite !Forall_forall. intros H F p Hp. destruct (F p Hp) as (b & E & R). exists b. split; auto.
  rewrite H; auto. now apply in_map.
Qed.

(** Down the left edge, a scan finds the first child of every node. *)
Fixpoint spine (B : bmap) (d : nat) (g : gt) : Prop :=
  match d, g with
  | S d', GB i ks (c :: cs) => (exists b, B i = Some b /\ bsp b ks (map (@gid V) (c :: cs))) /\ spine B d' c
  | S _, _ => False
  | 0, _ => True
  end.

Lemma spine_frame d : forall B B' g, (forall i, In i (bids [g]) -> B' i = B i) -> spine B d g -> spine B' d g.
Proof.
  induction d as [|d IH]; intros B B' [i es|i ks [|c cs]] H; cbn [spine]; try tauto.
  intros [(b & E & HS) Hc]. rewrite bids_GB in H. split.
  - exists b. rewrite H by (simpl; auto). auto.
  - eapply IH; [|exact Hc]. intros j Hj. apply H. right. change (c :: cs) with ([c] ++ cs). rewrite bids_app. apply in_or_app. auto.
Qed.

(** The key goes to the right of the first child of the top node. *)
Definition rightish (g : gt) (k : Z) := match g with GB _ (x :: _) _ => (x <= k)%Z | _ => False end.

Lemma insert_leaf_gh h G i k v :
  insert_leaf O (gh h G) i k v = do r <- insert_leaf O h i k v; Ok (gh (fst r) G, snd r).
Proof.
  unfold insert_leaf, getl. cbn [gh hl]. destruct (hl h i) as [l|]; cbn [of_opt bind]; auto.
  destruct (lo_insert O l k v) as [[l'|l1 l2 sk]| |]; cbn [bind]; auto.
  unfold new_leaf, set_leaf. cbn [gh hl hnx hpv hfresh hb].
  destruct (upd (hnx h) (hfresh h) None i) as [n|] eqn:E; cbn [bind]; auto.
  unfold set_pv_chk, set_nx, getl. cbn [hl].
  destruct (upd (upd (hl h) (hfresh h) (Some l2)) i (Some l1) n); cbn [of_opt bind]; auto.
Qed.

(** Postcondition of an insertion below the root. *)
Definition xpost (m d : nat) lo hi (h : hp) (G : nat -> option branch) (B : bmap) A (g : gt) Bc (k : Z) (v : V)
    (h' : hp) (B' : bmap) (r : option split) : Prop :=
  exists G' gs', upd_ok (gh h G) A [g] Bc (gh h' G') gs' /\ nok B' gs' /\
    (forall i, i < hfresh h -> ~ In i (bids [g]) -> B' i = B i) /\
    (ents gs' = ins k v (ents [g]) /\ hd_error (lids gs') = hd_error (lids [g])) /\
    match r with
    | None => exists g', gs' = [g'] /\ gid g' = gid g /\ wf m d lo hi g' /\ (rightish g k -> spine B d g -> spine B' d g')
    | Some sp => exists g1 g2, gs' = [g1; g2] /\ gid g1 = gid g /\ sleft sp = gid g1 /\ sright sp = gid g2 /\
        wf (mn minL 0 d) d lo (Some (skey sp)) g1 /\ wf (mn minL 0 d) d (Some (skey sp)) hi g2 /\
        bl lo (Some (skey sp)) /\ bl (Some (skey sp)) hi /\ kok (skey sp) /\ (rightish g k -> spine B d g -> spine B' d g1)
    end.

Lemma split_kok h A Bc i1 e1 i2 e2 sk : inv h A [GL i1 e1; GL i2 e2 : gt] Bc -> e1 <> [] -> e2 <> [] ->
  Forall (fun x => (x < sk)%Z) (keys e1) -> Forall (fun x => (sk <= x)%Z) (keys e2) -> kok sk.
Proof.
  intros I N1 N2 F1 F2.
  destruct (@leaf_of _ _ N lrep h A _ Bc i1 e1 I) as (l1 & _ & R1); [simpl; auto|].
  destruct (@leaf_of _ _ N lrep h A _ Bc i2 e2 I) as (l2 & _ & R2); [simpl; auto|].
  apply l_kok in R1, R2. destruct e1 as [|[x w] e1]; [congruence|]. destruct e2 as [|[y w'] e2]; [congruence|].
  cbn [keys map fst] in *. inversion F1; inversion F2; inversion R1; inversion R2; subst.
  apply (@kok_mid x y sk); auto; lia.
Qed.

Lemma x_leaf_ok m h G B A i es Bc lo hi k v : 1 <= minL -> ik k -> wf m 0 lo hi (GL i es) -> inb lo hi k ->
  inv (gh h G) A [GL i es] Bc ->
  exists h' B' r, x_insert O Q h B 0 i k v = Ok (h', B', r) /\ xpost m 0 lo hi h G B A (GL i es) Bc k v h' B' r.
Proof.
  intros HL Kk HW Hk HI.
  destruct (@insert_leaf_ok L V N M O lrep minL 0 ik LL HN HB0 m (gh h G) A i es Bc lo hi k v Kk HW Hk HI) as
    (hg & r & E & gs' & U & EE & HR).
  rewrite insert_leaf_gh in E. destruct (insert_leaf O h i k v) as [[h' r']| |] eqn:E1; cbn [bind fst snd] in E; try discriminate.
  injection E as <- ->. exists h', B, r. cbn [x_insert]. rewrite E1. split; [reflexivity|].
  exists G, gs'. splits; auto; try tauto.
  - destruct r as [sp|]; [destruct HR as (g1 & g2 & -> & _ & _ & _ & W1 & W2 & _)|destruct HR as (g1 & -> & _ & W1)].
    + destruct g1; [|simpl in W1; tauto]. destruct g2; [|simpl in W2; tauto]. constructor.
    + destruct g1; [|simpl in W1; tauto]. constructor.
  - destruct r as [sp|].
    + destruct HR as (g1 & g2 & -> & Eg & El & Er & W1 & W2 & B1 & B2). exists g1, g2. splits; auto.
      destruct g1 as [i1 e1|]; [|simpl in W1; tauto]. destruct g2 as [i2 e2|]; [|simpl in W2; tauto].
      cbn [mn BTreeGhost.wf] in W1, W2.
      eapply split_kok; [apply (uo_inv U)| | | |].
      * intros ->. cbn [length] in W1. lia.
      * intros ->. cbn [length] in W2. lia.
      * eapply Forall_impl; [|apply W1]. intros x [_ Hx]. exact Hx.
      * eapply Forall_impl; [|apply W2]. intros x [Hx _]. exact Hx.
    + destruct HR as (g1 & -> & Eg & W1). exists g1. splits; auto.
Qed.

Lemma rightish_route (a bb : list Z) k i (cs : list gt) : agt k bb -> rightish (GB i (a ++ bb) cs) k -> a <> [].
Proof.
  intros Hb Hr ->. cbn [app rightish] in Hr. destruct bb as [|x bb]; [tauto|]. inversion Hb; subst. lia.
Qed.

Lemma in_bids_mid (CA : list gt) c CB i : In i (bids (CA ++ c :: CB)) <-> In i (bids CA) \/ In i (bids [c]) \/ In i (bids CB).
Proof. change (CA ++ c :: CB) with (CA ++ [c] ++ CB). rewrite !bids_app, !in_app_iff. tauto. Qed.

Lemma spine_head B d (g : gt) i ks c cs : g = GB i ks (c :: cs) -> spine B (S d) g ->
  (exists b, B i = Some b /\ bsp b ks (map (@gid V) (c :: cs))) /\ spine B d c.
Proof. intros -> H. exact H. Qed.

Lemma x_insert_ok (HL : 1 <= minL) d : forall m h G B A g Bc lo hi k v, ik k -> wf m d lo hi g -> inb lo hi k ->
  inv (gh h G) A [g] Bc -> nok B [g] ->
  exists h' B' r, x_insert O Q h B d (gid g) k v = Ok (h', B', r) /\ xpost m d lo hi h G B A g Bc k v h' B' r.
Proof.
  induction d as [|d IH]; intros m h G B A [i es|i ks cs] Bc lo hi k v Kk HW Hk HI HX; try (cbn [BTreeGhost.wf] in HW; tauto).
  - now apply x_leaf_ok.
  - cbn [BTreeGhost.wf] in HW. destruct HW as [HC HK]. pose proof HI as HI0.
    apply inv_GB in HI as (HI & Hfi & Hni & _). apply nok_GB in HX as [(b & Eb & Hb) HX]. cbn [fst snd] in *.
    destruct (route HK Hk) as (a & bb & CA & c & CB & -> & -> & LA & LB & Ha & Hbb & KL & Rc & Bd & KR & Hkc).
    destruct (kids_sorted HK) as [HS HKb].
    change (CA ++ c :: CB) with (CA ++ [c] ++ CB) in HI, HX.
    pose proof (inv_sub HI) as HIc. apply nok_app in HX as [XA HX]. apply nok_app in HX as [Xc XB].
    destruct (IH _ _ _ _ _ _ _ _ _ k v Kk Rc Hkc HIc Xc) as (h1 & B1 & r & E & G1 & gs' & U & X' & FB & (EE & EH) & HR).
    pose proof (upd_ctx HI U) as UC.
    destruct (ctx_ents (wf_okc (m := mn minL 0 d) (d := d)) KL KR Hkc) as [HA HBB].
    assert (EN : ents (CA ++ gs' ++ CB) = ins k v (ents (CA ++ c :: CB))).
    { change (CA ++ c :: CB) with (CA ++ [c] ++ CB). rewrite !ents_app, EE.
      rewrite ins_app_lt by assumption. now rewrite ins_app_gt. }
    assert (EHN : hd_error (lids (CA ++ gs' ++ CB)) = hd_error (lids (CA ++ c :: CB))).
    { change (CA ++ c :: CB) with (CA ++ [c] ++ CB). rewrite !lids_app. now apply hd_ctx. }
    rewrite map_app in Hb. cbn [map] in Hb.
    destruct (@xl_pos _ _ _ _ _ _ BL b a bb (map (@gid V) CA) (gid c) (map (@gid V) CB) k Hb) as (p & Ep & Ec & Hadd); rewrite ?map_length; auto.
    cbn [x_insert gid]. unfold xget at 1. rewrite Eb. cbn [of_opt bind]. rewrite Ep. cbn [bind]. rewrite Ec. cbn [bind].
    rewrite E. cbn [bind].
    cbn [gh hfresh] in Hfi.
    assert (NDB : NoDup (bids (CA ++ [c] ++ CB))) by apply (inv_ndb HI).
    assert (LTB : forall j, In j (bids (CA ++ [c] ++ CB)) -> j < hfresh h) by apply (inv_ltb HI).
    rewrite !bids_app in NDB. apply NoDup_app_inv in NDB as (_ & NDB & ND1). apply NoDup_app_inv in NDB as (_ & _ & ND2).
    assert (Hnc : ~ In i (bids [c])). { intros Hc. apply Hni. apply in_bids_mid. auto. }
    assert (Eb1 : B1 i = Some b) by (rewrite FB; auto).
    assert (FA : forall j, In j (bids CA) -> B1 j = B j).
    { intros j Hj. apply FB; [apply LTB; rewrite !bids_app, !in_app_iff; auto|].
      intros Hc. eapply ND1; [exact Hj|]. apply in_or_app; auto. }
    assert (FBB : forall j, In j (bids CB) -> B1 j = B j).
    { intros j Hj. apply FB; [apply LTB; rewrite !bids_app, !in_app_iff; auto|].
      intros Hc. eapply ND2; [exact Hc|exact Hj]. }
    assert (XN : nok B1 (CA ++ gs' ++ CB)).
    { apply nok_app. split; [eapply nok_frame; eauto|]. apply nok_app. split; auto. eapply nok_frame; eauto. }
    assert (Hsp : forall ks0, rightish (GB i (a ++ bb) (CA ++ c :: CB)) k -> spine B (S d) (GB i ks0 (CA ++ c :: CB)) ->
      a <> [] /\ exists c0 CA', CA = c0 :: CA' /\ spine B1 d c0 /\ ~ In i (bids [c0]) /\
        (forall j, In j (bids [c0]) -> j < hfresh h) /\ bsp b ks0 (map (@gid V) CA ++ gid c :: map (@gid V) CB)).
    { intros ks0 Hr Hs. pose proof (rightish_route Hbb Hr) as Hne. split; auto.
      destruct CA as [|c0 CA']; [destruct a; [congruence|discriminate LA]|].
      exists c0, CA'. destruct Hs as [(b0 & Eb0 & Hs0) Hs1]. splits; auto.
      - eapply spine_frame; [|exact Hs1]. intros j Hj. apply FA. change (c0 :: CA') with ([c0] ++ CA'). rewrite bids_app. apply in_or_app; auto.
      - intros Hc. apply Hni. change (c0 :: CA') with ([c0] ++ CA'). rewrite <- app_assoc, bids_app. apply in_or_app; auto.
      - intros j Hj. apply LTB. change (c0 :: CA') with ([c0] ++ CA'). rewrite <- app_assoc, bids_app. apply in_or_app; auto.
      - cbn [app] in Hs0. rewrite Eb in Eb0. injection Eb0 as <-. cbn [map app] in Hs0 |- *. rewrite map_app in Hs0. exact Hs0. }
    destruct r as [sp|].
    + destruct HR as (g1 & g2 & -> & Eg1 & El & Er & W1 & W2 & Bd1 & Bd2 & Ksk & _).
      unfold xget. rewrite Eb1. cbn [of_opt bind].
      assert (HKN : kids (wf (mn minL 0 d) d) lo (a ++ [skey sp] ++ bb) (CA ++ [g1; g2] ++ CB) hi).
      { apply kids_ctx; auto. splits; auto. cbn [kids]. auto. }
      destruct sp as [s sl sr]. cbn [skey sleft sright] in *. subst sl sr.
      rewrite (xl_full BL Hb). cbn [bind].
      assert (Hss : ssorted (a ++ [s] ++ bb)) by (apply (kids_sorted HKN)).
      assert (Hni2 : ~ In i (bids (CA ++ [g1; g2] ++ CB))).
      { intros Hc. destruct (uo_b UC Hc) as [Hc'|Hc']; [now apply Hni|cbn [gh hfresh] in Hc'; lia]. }
      destruct (Nat.eqb_spec (length (a ++ bb)) N) as [EQ|NE].
      * (* the branch node is full: split it *)
        destruct (xl_split BL Hb EQ Ksk HS) as (a' & sk & b' & ca & cb & b1 & b2 & ES & Eks & Ecs & Lca & R1 & R2 & Hsl).
        rewrite ES. cbn [bind].
        assert (Ecs' : map (@gid V) (CA ++ c :: CB) = ca ++ cb) by (rewrite map_app; exact Ecs).
        apply map_eq_app in Ecs' as (X0 & Y0 & EXY & <- & <-). rewrite map_length in Lca.
        assert (Kskk : kok sk).
        { destruct (xl_len BL Hb) as (_ & _ & F). rewrite Eks in F. rewrite Forall_forall in F. apply F. apply in_or_app; simpl; auto. }
        assert (Hf1 : hfresh h <= hfresh h1) by apply (fr_fresh (uo_fr UC)).
        assert (His : i <> hfresh h1) by lia.
        assert (LTN : forall j, In j (bids (CA ++ [g1; g2] ++ CB)) -> j < hfresh h1) by apply (inv_ltb (uo_inv UC)).
        unfold fresh.
        (* the rest is the same for both hosts *)
        assert (FIN : forall X Y x y c1 c2,
          CA ++ [g1; g2] ++ CB = X ++ Y ->
          brepx c1 x (map (@gid V) X) -> brepx c2 y (map (@gid V) Y) ->
          length x <= N -> length y <= N ->
          kids (wf (mn minL 0 d) d) lo x X (Some sk) -> kids (wf (mn minL 0 d) d) (Some sk) y Y hi ->
          (rightish (GB i (a ++ bb) (CA ++ c :: CB)) k -> forall c0 CA', CA = c0 :: CA' ->
             bsp b (a ++ bb) (map (@gid V) CA ++ gid c :: map (@gid V) CB) -> exists X', X = c0 :: X' /\ bsp c1 x (map (@gid V) X)) ->
          xpost m (S d) lo hi h G B A (GB i (a ++ bb) (CA ++ c :: CB)) Bc k v
            (Heap (hl h1) (hb h1) (hnx h1) (hpv h1) (S (hfresh h1))) (upd (upd B1 (hfresh h1) (Some c2)) i (Some c1))
            (Some (Split sk i (hfresh h1)))).
        { clear ES R1 R2 Hsl. intros X Y x y c1 c2 EX R1 R2 Lx Ly K1 K2 HSP.
          destruct (xl_len BL R1) as (_ & L1 & _). destruct (xl_len BL R2) as (_ & L2 & _).
          exists (upd (upd G1 (hfresh h1) (Some (canon y (map (@gid V) Y)))) i (Some (canon x (map (@gid V) X)))).
          exists [GB i x X; GB (hfresh h1) y Y]. rewrite EX in UC, XN, EN, EHN, Hni2, LTN.
          assert (EL : lids [GB i x X; GB (hfresh h1) y Y] = lids (X ++ Y)).
          { change [GB i x X; GB (hfresh h1) y Y] with ([GB i x X] ++ [GB (hfresh h1) y Y]). now rewrite !lids_app, !lids_GB. }
          assert (EE' : ents [GB i x X; GB (hfresh h1) y Y] = ents (X ++ Y)).
          { change [GB i x X; GB (hfresh h1) y Y] with ([GB i x X] ++ [GB (hfresh h1) y Y]). now rewrite !ents_app, !ents_GB. }
          rewrite EL, EE', ents_GB, lids_GB. splits; auto.
          - eapply (split_node_upd HN HB0) with (h1 := gh h1 G1) (b1 := canon x (map (@gid V) X)) (b2 := canon y (map (@gid V) Y)); eauto; try reflexivity.
            + cbn [gh hb]. now rewrite upd_same'.
            + cbn [gh hb hfresh]. rewrite upd_other by auto. now rewrite upd_same'.
            + intros j H1 H2. cbn [gh hb]. cbn [gh hfresh] in H2. now rewrite !upd_other by auto.
            + apply canon_brep; auto.
            + apply canon_brep; auto.
          - assert (XN' : nok (upd (upd B1 (hfresh h1) (Some c2)) i (Some c1)) (X ++ Y)).
            { eapply nok_frame; [|exact XN]. intros j Hj. rewrite upd_other by (intros ->; tauto).
              apply upd_other. intros ->. apply LTN in Hj. lia. }
            apply nok_app in XN' as [XX XY].
            change [GB i x X; GB (hfresh h1) y Y] with ([GB i x X] ++ [GB (hfresh h1) y Y]). apply nok_app. rewrite !nok_GB.
            splits; auto.
            + exists c1. cbn [fst snd]. now rewrite upd_same'.
            + exists c2. cbn [fst snd]. rewrite upd_other by auto. now rewrite upd_same'.
          - intros j Hj Hn. rewrite bids_GB in Hn. rewrite !upd_other; [|lia|intros ->; apply Hn; simpl; auto].
            apply FB; auto. intros Hc. apply Hn. right. apply in_bids_mid. auto.
          - eexists _, _. cbn [skey sleft sright gid]. splits; try reflexivity; auto.
            + cbn [BTreeGhost.wf mn]. split; [lia|exact K1].
            + cbn [BTreeGhost.wf mn]. split; [lia|exact K2].
            + exact (kids_bl K1).
            + exact (kids_bl K2).
            + intros Hr Hs. destruct (Hsp _ Hr Hs) as (Hne & c0 & CA' & EC & Hs0 & Hi0 & Hlt0 & Hb0).
              destruct (HSP Hr _ _ EC Hb0) as (X1 & -> & Hc1). cbn [spine]. split.
              * exists c1. rewrite upd_same'. auto.
              * eapply spine_frame; [|exact Hs0]. intros j Hj. rewrite upd_other by (intros ->; tauto).
                apply upd_other. intros ->. apply Hlt0 in Hj. lia. }
        destruct (app_cons_split Eks) as [(b1' & -> & ->)|(a2 & -> & ->)].
        -- (* key < sk: host is the left node *)
           assert (Hlt : (k < sk)%Z). { rewrite agt_in in Hbb. apply Hbb. apply in_or_app; simpl; auto. }
           destruct (Z.ltb_spec k sk); [|lia].
           assert (exists CB1, X0 = CA ++ c :: CB1 /\ CB = CB1 ++ Y0) as (CB1 & -> & ->).
           { rewrite app_length in Lca.
             exists (skipn (S (length CA)) X0).
             assert (EX : X0 = (CA ++ [c]) ++ skipn (S (length CA)) X0 /\ CB = skipn (S (length CA)) X0 ++ Y0).
             { rewrite <- (firstn_skipn (S (length CA)) X0), <- app_assoc in EXY.
               replace (CA ++ c :: CB) with ((CA ++ [c]) ++ CB) in EXY by (rewrite <- app_assoc; reflexivity).
               destruct (@split_at_app _ _ (CA ++ [c]) CB (S (length CA)) eq_refl ltac:(rewrite app_length; simpl; lia) _ _ EXY) as [E1 E2].
               - rewrite firstn_length. lia.
               - split; [|auto]. rewrite <- E1. symmetry. apply firstn_skipn. }
             rewrite <- app_assoc in EX. exact EX. }
           assert (HKN' : kids (wf (mn minL 0 d) d) lo ((a ++ s :: b1') ++ sk :: b') ((CA ++ g1 :: g2 :: CB1) ++ Y0) hi).
           { clear - HKN. rewrite <- !app_assoc. exact HKN. }
           apply kids_cut in HKN'; [|rewrite !app_length in *; cbn [length] in *; lia]. destruct HKN' as [K1 K2].
           assert (HSa : ssorted (a ++ s :: b1')).
           { cbn [app] in Hss. replace (a ++ s :: b1' ++ sk :: b') with ((a ++ s :: b1') ++ sk :: b') in Hss by (rewrite <- app_assoc; reflexivity).
             now apply ssorted_app in Hss as (? & _). }
           assert (Hb1 : agt k b1') by (unfold agt in *; now apply Forall_app in Hbb as [? _]).
           assert (LCB1 : length CB1 = length b1').
           { rewrite !app_length in Lca. simpl in Lca. lia. }
           rewrite map_app in R1. cbn [map] in R1.
           destruct (@xl_add _ _ _ _ _ _ BL b1 a b1' (map (@gid V) CA) (gid c) (map (@gid V) CB1) k s (gid g1) (gid g2) R1) as (b1n & EA & R1n & Hsn); auto.
           { now rewrite map_length. }
           { now rewrite map_length. }
           { rewrite !app_length in *. cbn [length] in *. lia. }
           rewrite EA. cbn [bind]. eexists _, _, _. split; [reflexivity|].
           eapply (FIN (CA ++ g1 :: g2 :: CB1) Y0 (a ++ s :: b1') b'); eauto.
           ++ rewrite <- app_assoc. reflexivity.
           ++ rewrite map_app. exact R1n.
           ++ rewrite !app_length in *. cbn [length] in *. lia.
           ++ rewrite !app_length in *. cbn [length] in *. lia.
           ++ intros Hr c0 CA' EC Hb0. pose proof (rightish_route Hbb Hr) as Hne. subst CA. eexists. split; [reflexivity|].
              rewrite map_app. apply Hsn; auto. apply Hsl in Hb0. rewrite map_app in Hb0. exact Hb0.
        -- (* sk <= key: host is the right node *)
           assert (Hge : (sk <= k)%Z). { rewrite ale_in in Ha. apply Ha. apply in_or_app; simpl; auto. }
           destruct (Z.ltb_spec k sk); [lia|].
           assert (exists CA2, CA = X0 ++ CA2 /\ Y0 = CA2 ++ c :: CB /\ length CA2 = length a2) as (CA2 & -> & -> & LCA2).
           { rewrite app_length in LA. cbn [length] in LA.
             rewrite <- (firstn_skipn (S (length a')) CA), <- app_assoc in EXY.
             destruct (@split_at_app _ _ (firstn (S (length a')) CA) (skipn (S (length a')) CA ++ c :: CB) (S (length a')) eq_refl ltac:(rewrite firstn_length; lia) _ _ EXY Lca) as [E1 E2].
             exists (skipn (S (length a')) CA). splits; auto.
             - rewrite E1. symmetry. apply firstn_skipn.
             - rewrite skipn_length. lia. }
           assert (HKN' : kids (wf (mn minL 0 d) d) lo (a' ++ sk :: (a2 ++ s :: bb)) (X0 ++ (CA2 ++ g1 :: g2 :: CB)) hi).
           { clear - HKN. rewrite <- !app_assoc in HKN. exact HKN. }
           apply kids_cut in HKN'; [|exact Lca]. destruct HKN' as [K1 K2].
           assert (HSa : ssorted (a2 ++ s :: bb)).
           { cbn [app] in Hss. rewrite <- app_assoc in Hss. apply ssorted_app in Hss as (_ & Hss & _). cbn [app] in Hss. now apply ssorted_cons in Hss. }
           assert (Ha2 : ale k a2).
           { rewrite ale_in in *. intros z Hz. apply Ha. apply in_or_app; simpl; auto. }
           rewrite map_app in R2. cbn [map] in R2.
           destruct (@xl_add _ _ _ _ _ _ BL b2 a2 bb (map (@gid V) CA2) (gid c) (map (@gid V) CB) k s (gid g1) (gid g2) R2) as (b2n & EA & R2n & _); auto.
           { now rewrite map_length. }
           { now rewrite map_length. }
           { rewrite !app_length in *. cbn [length] in *. lia. }
           rewrite EA. cbn [bind]. eexists _, _, _. split; [reflexivity|].
           eapply (FIN X0 (CA2 ++ g1 :: g2 :: CB) a' (a2 ++ s :: bb)); eauto.
           ++ rewrite <- app_assoc. reflexivity.
           ++ rewrite map_app. exact R2n.
           ++ rewrite !app_length in *. cbn [length] in *. lia.
           ++ rewrite !app_length in *. cbn [length] in *. lia.
           ++ intros Hr c0 CA' EC Hb0. destruct X0 as [|x0 X0]; [simpl in Lca; discriminate|].
              cbn [app] in EC. injection EC as -> _. exists X0. split; [reflexivity|]. now apply Hsl.
      * (* room in this node *)
        destruct (Hadd ltac:(lia) s (gid g1) (gid g2) Ksk Hss) as (b' & EA & Rb' & Hsn).
        rewrite EA. cbn [bind]. eexists _, _, None. split; [reflexivity|].
        destruct (xl_len BL Rb') as (Ln1 & Ln2 & _).
        exists (upd G1 i (Some (canon (a ++ s :: bb) (map (@gid V) (CA ++ [g1; g2] ++ CB))))).
        exists [GB i (a ++ s :: bb) (CA ++ [g1; g2] ++ CB)].
        rewrite !ents_GB, !lids_GB. splits; auto.
        { apply (@upd_node _ _ _ _ (gh h G) A i (a ++ bb) (CA ++ c :: CB) Bc (gh h1 G1) _ (canon (a ++ s :: bb) (map (@gid V) (CA ++ [g1; g2] ++ CB)))
                   _ _ HI0 UC eq_refl). apply canon_brep; auto. rewrite map_app. exact Ln2. }
        { apply nok_GB. split.
          - exists b'. cbn [fst snd]. rewrite upd_same'. split; auto. rewrite map_app. exact Rb'.
          - eapply nok_frame; [|exact XN]. intros j Hj. apply upd_other. intros ->. tauto. }
        { intros j Hj Hn. rewrite bids_GB in Hn. rewrite upd_other by (intros ->; apply Hn; simpl; auto).
          apply FB; auto. intros Hc. apply Hn. right. apply in_bids_mid. auto. }
        eexists. splits; [reflexivity|reflexivity| |].
        { cbn [BTreeGhost.wf]. split; [|exact HKN]. rewrite app_length in *. cbn [app length] in *. lia. }
        { intros Hr Hs. destruct (Hsp _ Hr Hs) as (Hne & c0 & CA' & EC & Hs0 & Hi0 & Hlt0 & Hb0).
          specialize (Hsn Hne Hb0). rewrite EC in Hsn |- *. cbn [app spine]. split.
          - exists b'. rewrite upd_same'. split; auto. change (c0 :: CA' ++ g1 :: g2 :: CB) with ((c0 :: CA') ++ g1 :: g2 :: CB).
            rewrite map_app. exact Hsn.
          - eapply spine_frame; [|exact Hs0]. intros j Hj. apply upd_other. intros ->. tauto. }
    + destruct HR as (g' & -> & Eg & W & _). eexists _, _, None. split; [reflexivity|].
      exists G1, [GB i (a ++ bb) (CA ++ [g'] ++ CB)].
      rewrite !ents_GB, !lids_GB.
      assert (EM : map (@gid V) (CA ++ [g'] ++ CB) = map (@gid V) CA ++ gid c :: map (@gid V) CB).
      { rewrite map_app. cbn [map app]. now rewrite Eg. }
      splits; auto.
      { eapply upd_node_same; eauto. rewrite EM, map_app. reflexivity. }
      { apply nok_GB. split; auto. exists b. cbn [fst snd]. rewrite EM. auto. }
      { intros j Hj Hn. rewrite bids_GB in Hn. apply FB; auto. intros Hc. apply Hn. right. apply in_bids_mid. auto. }
      eexists. splits; [reflexivity|reflexivity| |].
      { cbn [BTreeGhost.wf]. split; [exact HC|].
        pose proof (@kids_ctx _ (wf (mn minL 0 d) d) a CA bb CB lo hi [] [g'] LA LB) as EK. cbn [app] in EK.
        apply EK. splits; auto. cbn [kids]. auto. }
      intros Hr Hs. destruct (Hsp _ Hr Hs) as (Hne & c0 & CA' & EC & Hs0 & Hi0 & Hlt0 & Hb0).
      rewrite EC in *. cbn [app spine]. split; auto. exists b. split; auto.
      change (c0 :: CA' ++ g' :: CB) with ((c0 :: CA') ++ [g'] ++ CB). rewrite EM. exact Hb0.
Qed.

(** ** The whole tree *)
Notation xtree := (xtree L BR).
Definition xinv (t : xtree) (es : list (Z * V)) : Prop :=
  exists G (g : gt), gid g = xroot t /\ wf (rmin (xdepth t)) (xdepth t) None None g /\
    inv (gh (xth t) G) [] [g] [] /\ nok (xtb t) [g] /\ ents [g] = es.
(** Same, and the first child of every node on the left edge is where the scan looks for it. *)
Definition xinvs (t : xtree) (es : list (Z * V)) : Prop :=
  exists G (g : gt), gid g = xroot t /\ wf (rmin (xdepth t)) (xdepth t) None None g /\
    inv (gh (xth t) G) [] [g] [] /\ nok (xtb t) [g] /\ ents [g] = es /\ spine (xtb t) (xdepth t) g.

Lemma xinvs_xinv t es : xinvs t es -> xinv t es.
Proof. intros (G & g & H1 & H2 & H3 & H4 & H5 & _). exists G, g. auto. Qed.

Lemma xinvs_new : xinvs (x_new BR O) [].
Proof.
  exists (fun _ => None), (GL 0 []). cbn [x_new new_leaf empty_heap xroot xdepth xth hfresh]. splits; auto.
  - cbn [rmin BTreeGhost.wf]. splits; auto; [constructor|constructor|cbn [length]; lia].
  - constructor; simpl.
    + constructor; [|constructor]. exists (lo_new O). split; [reflexivity|apply (law_new LL)].
    + constructor.
    + constructor; [simpl; tauto|constructor].
    + constructor.
    + intros i [<-|[]]. lia.
    + tauto.
    + tauto.
    + auto.
  - constructor.
  - exact Logic.I.
Qed.

Lemma xinv_sorted t es : xinv t es -> sorted es.
Proof. intros (G & g & _ & W & _ & _ & <-). apply wf_okc in W. tauto. Qed.

Lemma ents_ne (HL : 1 <= minL) d : forall m lo hi (g : gt), 1 <= m \/ 1 <= d -> wf m d lo hi g -> ents [g] <> [].
Proof.
  induction d as [|d IH]; intros m lo hi [i es|i ks cs] Hm HW; cbn [BTreeGhost.wf] in HW; try tauto.
  - rewrite ents_GL. intros ->. cbn [length] in HW. lia.
  - rewrite ents_GB. destruct HW as [_ HK]. destruct cs as [|c cs]; [apply kids_length in HK; discriminate|].
    destruct (kids_mono HK (c := c)) as (x & y & _ & Hc); [simpl; auto|].
    apply IH in Hc; [|destruct d; [left; exact HL|right; lia]].
    change (c :: cs) with ([c] ++ cs). rewrite ents_app. intros Hn. apply app_eq_nil in Hn. tauto.
Qed.

(** A key not smaller than any stored one goes to the right. *)
Lemma rightish_max (HL : 1 <= minL) d (g : gt) k : wf 1 (S d) None None g -> Forall (fun x => (x <= k)%Z) (keys (ents [g])) -> rightish g k.
Proof.
  destruct g as [i es|i [|x ks] [|c [|c2 cs]]]; cbn [BTreeGhost.wf kids length rightish]; try tauto; try lia.
  - intros (_ & _ & _ & H). destruct ks; simpl in H; tauto.
  - intros (_ & _ & _ & H) F. rewrite ents_GB in F. change (c :: c2 :: cs) with ([c] ++ [c2] ++ cs) in F.
    rewrite !ents_app, !keys_app, !Forall_app in F. destruct F as (_ & F & _).
    assert (Hc : exists y, wf (mn minL 0 d) d (Some x) y c2).
    { destruct ks; cbn [kids] in H; [destruct cs; [|tauto]|]; eexists; apply H. }
    destruct Hc as [y Hc].
    assert (Hne : ents [c2] <> []). { eapply ents_ne; [exact HL| |exact Hc]. destruct d; [left; exact HL|right; lia]. }
    apply wf_okc in Hc as [_ Hc]. destruct (ents [c2]) as [|[z w] es]; [congruence|].
    cbn [keys map fst] in *. inversion F; inversion Hc as [|? ? [Hz _] _]; subst. cbn [lob] in Hz. lia.
Qed.

Lemma x_ins_gen (HL : 1 <= minL) t G g k v : ik k -> gid g = xroot t -> wf (rmin (xdepth t)) (xdepth t) None None g ->
  inv (gh (xth t) G) [] [g] [] -> nok (xtb t) [g] ->
  exists t' G' g', x_ins O Q t k v = Ok t' /\ gid g' = xroot t' /\ wf (rmin (xdepth t')) (xdepth t') None None g' /\
    inv (gh (xth t') G') [] [g'] [] /\ nok (xtb t') [g'] /\ ents [g'] = ins k v (ents [g]) /\
    hd_error (lids [g']) = hd_error (lids [g]) /\
    (rightish g k \/ xdepth t = 0 -> spine (xtb t) (xdepth t) g -> spine (xtb t') (xdepth t') g').
Proof.
  intros Kk E W I X. destruct t as [h B r d]. cbn [xroot xdepth xth xtb] in *. subst r.
  destruct (@x_insert_ok HL d _ h G B [] g [] None None k v Kk W ltac:(split; exact Logic.I) I X) as
    (h1 & B1 & r & E & G1 & gs' & U & X1 & FB & (EE & EH) & HR).
  unfold x_ins. cbn [xroot xdepth xth xtb]. rewrite E. cbn [bind]. destruct r as [[s sl sr]|].
  - destruct HR as (g1 & g2 & -> & Eg & E1 & E2 & W1 & W2 & _ & _ & Ks & Hs). cbn [skey sleft sright] in *. subst sl sr.
    cbn [fresh]. destruct (xl_root BL (gid g1) (gid g2) Ks) as (b & -> & Hb & Hsp). cbn [bind].
    pose proof (uo_inv U) as J.
    assert (Hnf : ~ In (hfresh h1) (bids [g1; g2])).
    { intros Hc. apply (inv_ltb J) in Hc. cbn [gh hfresh] in Hc. lia. }
    exists (XTree (Heap (hl h1) (hb h1) (hnx h1) (hpv h1) (S (hfresh h1))) (upd B1 (hfresh h1) (Some b)) (hfresh h1) (S d)).
    exists (upd G1 (hfresh h1) (Some (canon [s] [gid g1; gid g2]))), (GB (hfresh h1) [s] [g1; g2]).
    cbn [xroot xdepth xth xtb gid]. splits; auto.
    + cbn [rmin BTreeGhost.wf kids bl]. splits; auto; cbn [length]; lia.
    + apply inv_GB. splits; auto.
      * eapply inv_frame; [exact J|..]; cbn [gh hl hb hnx hpv hfresh]; auto.
        -- intros j Hj. apply upd_other. intros ->. tauto.
        -- simpl. tauto.
      * eexists. cbn [fst snd gh hb]. rewrite upd_same'. split; [reflexivity|]. apply canon_brep; cbn [length map]; lia.
    + apply nok_GB. split.
      * exists b. cbn [fst snd]. rewrite upd_same'. auto.
      * eapply nok_frame; [|exact X1]. intros j Hj. apply upd_other. intros ->. tauto.
    + rewrite ents_GB. exact EE.
    + unfold lids. rewrite lvs_GB. exact EH.
    + intros Hr Hg. cbn [spine]. split.
      * exists b. rewrite upd_same'. auto.
      * assert (Hg1 : spine B1 d g1).
        { destruct Hr as [Hr| ->]; [auto|]. destruct g1; exact Logic.I. }
        eapply spine_frame; [|exact Hg1]. intros j Hj. apply upd_other. intros ->. apply Hnf.
        change [g1; g2] with ([g1] ++ [g2]). rewrite bids_app. apply in_or_app; auto.
  - destruct HR as (g' & -> & Eg & W' & Hs). eexists _, G1, g'. split; [reflexivity|]. cbn [xroot xdepth xth xtb]. splits; auto.
    + exact (uo_inv U).
    + intros [Hr| ->] Hg; [auto|]. destruct g'; exact Logic.I.
Qed.

Lemma x_ins_ok (HL : 1 <= minL) t es k v : ik k -> xinv t es -> exists t', x_ins O Q t k v = Ok t' /\ xinv t' (ins k v es).
Proof.
  intros Kk (G & g & E & W & I & X & <-).
  destruct (@x_ins_gen HL t G g k v Kk E W I X) as (t' & G' & g' & E' & H1 & H2 & H3 & H4 & H5 & _).
  exists t'. split; auto. exists G', g'. auto.
Qed.

(** Same, and the leftmost leaf is node [f]. *)
Definition xinvf (f : nat) (t : xtree) (es : list (Z * V)) : Prop :=
  exists G (g : gt), gid g = xroot t /\ wf (rmin (xdepth t)) (xdepth t) None None g /\
    inv (gh (xth t) G) [] [g] [] /\ nok (xtb t) [g] /\ ents [g] = es /\ hd_error (lids [g]) = Some f.
Lemma xinvf_xinv f t es : xinvf f t es -> xinv t es.
Proof. intros (G & g & H1 & H2 & H3 & H4 & H5 & _). exists G, g. auto. Qed.
Lemma xinvf_new : xinvf 0 (x_new BR O) [].
Proof.
  exists (fun _ => None), (GL 0 []). cbn [x_new new_leaf empty_heap xroot xdepth xth hfresh]. splits; auto.
  - cbn [rmin BTreeGhost.wf]. splits; auto; [constructor|constructor|cbn [length]; lia].
  - constructor; simpl.
    + constructor; [|constructor]. exists (lo_new O). split; [reflexivity|apply (law_new LL)].
    + constructor.
    + constructor; [simpl; tauto|constructor].
    + constructor.
    + intros i [<-|[]]. lia.
    + tauto.
    + tauto.
    + auto.
  - constructor.
Qed.
Lemma x_ins_f (HL : 1 <= minL) f t es k v : ik k -> xinvf f t es -> exists t', x_ins O Q t k v = Ok t' /\ xinvf f t' (ins k v es).
Proof.
  intros Kk (G & g & E & W & I & X & <- & F).
  destruct (@x_ins_gen HL t G g k v Kk E W I X) as (t' & G' & g' & E' & H1 & H2 & H3 & H4 & H5 & H6 & _).
  exists t'. split; auto. exists G', g'. splits; auto. congruence.
Qed.

Lemma x_ins_sp (HL : 1 <= minL) t es k v : ik k -> Forall (fun x => (x <= k)%Z) (keys es) -> xinvs t es ->
  exists t', x_ins O Q t k v = Ok t' /\ xinvs t' (ins k v es).
Proof.
  intros Kk HF (G & g & E & W & I & X & <- & Sp).
  destruct (@x_ins_gen HL t G g k v Kk E W I X) as (t' & G' & g' & E' & H1 & H2 & H3 & H4 & H5 & _ & H6).
  exists t'. split; auto. exists G', g'. splits; auto. apply H6; auto.
  destruct (xdepth t) as [|d]; [auto|left]. eapply rightish_max; eauto.
Qed.

(** ** Descent and lookup *)
Lemma x_find_ok d : forall m h G B A g Bc lo hi k, kok k -> wf m d lo hi g -> inv (gh h G) A [g] Bc -> nok B [g] -> inb lo hi k ->
  exists LA i es LB, x_find Q B d (gid g) k = Ok i /\ lvs [g] = LA ++ (i, es) :: LB /\
    alt k (keys (flat_map snd LA)) /\ agt k (keys (flat_map snd LB)).
Proof.
  induction d as [|d IH]; intros m h G B A [i es|i ks cs] Bc lo hi k Kk HW HI HX Hk; cbn [BTreeGhost.wf] in HW; try tauto.
  - exists [], i, es, []. cbn [x_find gid]. splits; auto; constructor.
  - destruct HW as [HC HK]. apply inv_GB in HI as (HI & _ & _ & _). apply nok_GB in HX as [(b & Eb & Hb) HX]. cbn [fst snd] in *.
    destruct (route HK Hk) as (a & bb & CA & c & CB & -> & -> & LA & LB & Ha & Hbb & KL & Rc & Bd & KR & Hkc).
    destruct (kids_sorted HK) as [HS _].
    change (CA ++ c :: CB) with (CA ++ [c] ++ CB) in HI, HX. apply nok_app in HX as [_ HX]. apply nok_app in HX as [HX _].
    apply inv_sub in HI.
    destruct (IH _ _ _ _ _ _ _ _ _ _ Kk Rc HI HX Hkc) as (lA & j & es & lB & E & EL & H1 & H2).
    exists (lvs CA ++ lA), j, es, (lB ++ lvs CB). cbn [x_find gid]. unfold xget. rewrite Eb. cbn [of_opt bind].
    rewrite map_app in Hb. cbn [map] in Hb.
    destruct (@xl_pos _ _ _ _ _ _ BL b a bb (map (@gid V) CA) (gid c) (map (@gid V) CB) k Hb) as (p & Ep & Ec & _);
      rewrite ?map_length; auto.
    rewrite Ep. cbn [bind]. rewrite Ec. cbn [bind].
    destruct (ctx_ents (wf_okc (m := mn minL 0 d) (d := d)) KL KR Hkc) as [HA HBB]. unfold ents in HA, HBB.
    splits; auto.
    + rewrite lvs_GB, lvs_cons_cut, EL. rewrite <- !app_assoc. reflexivity.
    + rewrite flat_map_app, keys_app. apply Forall_app. auto.
    + rewrite flat_map_app, keys_app. apply Forall_app. auto.
Qed.

Lemma x_lookup_ok t es k : kok k -> xinv t es -> x_lookup O Q t k = Ok (get k es).
Proof.
  intros Kk (G & g & E & HW & HI & HX & <-). destruct t as [h B r d]. cbn [xroot xdepth xth xtb] in *. subst r.
  unfold x_lookup. cbn [xth xtb xroot xdepth].
  destruct (@x_find_ok d _ h G B [] g [] None None k Kk HW HI HX) as (LA & i & es & LB & E & EL & H1 & H2); [split; exact Logic.I|].
  rewrite E. cbn [bind].
  destruct (@leaf_of _ _ N lrep (gh h G) [] [g] [] i es HI) as (l & El & Hl). { rewrite EL. apply in_or_app; simpl; auto. }
  unfold getl. cbn [gh hl] in El. rewrite El. cbn [of_opt bind]. rewrite (law_lookup LL k Hl).
  f_equal. unfold ents. rewrite EL, flat_map_app. cbn [flat_map].
  rewrite get_app_lt by assumption. now rewrite get_app_gt.
Qed.

(** ** Scan *)
Lemma x_first_ok d : forall m B (g : gt) lo hi, wf m d lo hi g -> spine B d g ->
  exists i es LB, x_first Q B d (gid g) = Ok i /\ lvs [g] = (i, es) :: LB.
Proof.
  induction d as [|d IH]; intros m B [i es|i ks cs] lo hi HW HS; cbn [BTreeGhost.wf] in HW; try tauto.
  - exists i, es, []. split; reflexivity.
  - destruct HW as [HC HK]. destruct cs as [|c cs]; [cbn [spine] in HS; tauto|]. destruct HS as [(b & Eb & Hb) HS].
    destruct (kids_mono HK (c := c)) as (x & y & _ & Hc); [simpl; auto|].
    destruct (IH _ _ _ _ _ Hc HS) as (j & es & LB & E & EL).
    exists j, es, (LB ++ lvs cs). cbn [x_first gid]. unfold xget. rewrite Eb. cbn [of_opt bind].
    cbn [map] in Hb. rewrite (xl_first BL Hb). cbn [bind]. split; auto.
    rewrite lvs_GB. change (c :: cs) with ([c] ++ cs). rewrite lvs_app, EL. reflexivity.
Qed.

Lemma scan_chain_gh h G : forall fuel i, scan_chain O fuel (gh h G) i = scan_chain O fuel h i.
Proof.
  induction fuel as [|f IH]; intros [i|]; cbn [scan_chain]; auto. unfold getl. cbn [gh hl].
  destruct (hl h i); cbn [of_opt bind]; auto. destruct (lo_scan O l); cbn [bind]; auto.
  cbn [gh hnx]. now rewrite IH.
Qed.

Lemma x_scan_w t G (g : gt) : gid g = xroot t -> wf (rmin (xdepth t)) (xdepth t) None None g -> inv (gh (xth t) G) [] [g] [] ->
  spine (xtb t) (xdepth t) g -> exists out, x_scan O Q t = Ok out /\ Permutation out (ents [g]) /\ in_runs M out.
Proof.
  intros E HW HI Sp. destruct t as [h B r d]. cbn [xroot xdepth xth xtb] in *. subst r.
  unfold x_scan. cbn [xth xtb xroot xdepth].
  destruct (x_first_ok HW Sp) as (i & es & LB & E & EL). rewrite E. cbn [bind].
  pose proof (inv_seg HI) as HS. cbn [app] in HS. rewrite app_nil_r in HS. unfold lids in HS.
  destruct (@scan_chain_ok _ _ _ _ _ _ _ _ _ LL HN HB0 (gh h G) (lvs [g]) None (S (hfresh h)) (inv_l HI) HS) as (outs & E2 & P).
  { pose proof (chain_fuel HN HB0 HI). cbn [gh hfresh] in *. lia. }
  pose proof (runs_ok LL (inv_l HI) ltac:(apply wf_okc in HW; apply HW) P) as HR.
  pose proof (perm_concat P) as PC. rewrite <- flat_map_concat_map in PC.
  rewrite EL in E2. cbn [map hbd hd fst] in E2. rewrite scan_chain_gh in E2. eauto.
Qed.

Lemma x_scan_ok t es : xinvs t es -> exists out, x_scan O Q t = Ok out /\ Permutation out es /\ in_runs M out.
Proof. intros (G & g & E & HW & HI & HX & <- & Sp). eapply x_scan_w; eauto. Qed.

Lemma x_scan_sorted t es : scan_laws O lrep -> xinvs t es -> x_scan O Q t = Ok es.
Proof.
  intros SL (G & g & E & HW & HI & HX & <- & Sp). destruct t as [h B r d]. cbn [xroot xdepth xth xtb] in *. subst r.
  unfold x_scan. cbn [xth xtb xroot xdepth].
  destruct (x_first_ok HW Sp) as (i & es & LB & E & EL). rewrite E. cbn [bind].
  pose proof (inv_seg HI) as HS. cbn [app] in HS. rewrite app_nil_r in HS. unfold lids in HS.
  pose proof (@scan_chain_sorted _ _ N _ _ 0 HN HB0 SL (gh h G) (lvs [g]) None (S (hfresh h)) (inv_l HI) HS) as E2.
  rewrite EL in E2 at 2. cbn [map hbd hd fst] in E2. rewrite scan_chain_gh in E2. apply E2.
  pose proof (chain_fuel HN HB0 HI). cbn [gh hfresh] in *. lia.
Qed.
End XProofs.

(** ** Histories of inserts *)
Fixpoint ins_all {V} (os : list (Z * V)) (es : list (Z * V)) : list (Z * V) :=
  match os with [] => es | (k, v) :: r => ins_all r (ins k v es) end.
Definition after {V} (es os : list (Z * V)) : Prop := forall x, In x (keys es) -> Forall (fun k => (x <= k)%Z) (map fst os).

Lemma after_step {V} k v (os es : list (Z * V)) : ascending ((k, v) :: os) -> after es ((k, v) :: os) ->
  Forall (fun x => (x <= k)%Z) (keys es) /\ ascending os /\ after (ins k v es) os.
Proof.
  unfold ascending, after. cbn [map fst]. intros HA HB. inversion HA; subst. splits; auto.
  - apply Forall_forall. intros x Hx. specialize (HB x Hx). now inversion HB.
  - intros x Hx. apply ins_in_keys in Hx as [->|Hx]; auto. specialize (HB x Hx). now inversion HB.
Qed.
Lemma ins_all_sorted {V} (os : list (Z * V)) : forall es, sorted es -> sorted (ins_all os es).
Proof. induction os as [|[k v] os IH]; intros es H; cbn [ins_all]; auto. apply IH, sorted_ins, H. Qed.
Lemma fold_m_ext {V} (os : list (mop V)) : forall (m m' : amap V), (forall x, m x = m' x) ->
  forall x, fold_left (m_step (V := V)) os m x = fold_left (m_step (V := V)) os m' x.
Proof.
  induction os as [|o os IH]; intros m m' H x; cbn [fold_left]; auto. apply IH. intros y.
  destruct o; cbn [m_step]; unfold m_put, m_del; rewrite H; auto.
Qed.
Lemma ins_all_fold {V} (os : list (Z * V)) : forall es, sorted es -> forall x,
  get x (ins_all os es) = fold_left (m_step (V := V)) (inserts os) (fun y => get y es) x.
Proof.
  induction os as [|[k v] os IH]; intros es H x; cbn [ins_all inserts map fold_left fst snd m_step]; auto.
  rewrite IH by now apply sorted_ins. apply fold_m_ext. intros y. unfold m_put. now rewrite get_ins.
Qed.
Lemma ins_all_run {V} (os : list (Z * V)) x : get x (ins_all os []) = m_run (inserts os) x.
Proof. unfold m_run. rewrite ins_all_fold by constructor. apply fold_m_ext. reflexivity. Qed.

