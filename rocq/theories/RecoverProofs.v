(** FPTree recovery rebuilds a well-formed tree over the same leaves. *)
From Verif Require Import Base ArrLemmas MapSpec SortedList BTreeModel BTreeLaws BTreeBranch BTreeGhost BTreeSpec BTreeInsert BTreeErase BTreeHist BTreeMain RecoverModel.
Open Scope nat_scope.

Ltac cj := repeat match goal with |- _ /\ _ => split end.

Section Recover.
Variables (L V : Type) (N M : nat) (O : leafops L V).
Variable lrep : L -> list (Z * V) -> Prop.
Variable minL : nat.
Variable kok : Z -> Prop.
Hypothesis LL : leaf_laws O M minL kok lrep.
Hypothesis MK : forall l es x (v : V), lrep l ((x, v) :: es) -> lo_minkey O l = Ok x.
Hypothesis HN : 2 <= N.
Hypothesis HL : 1 <= minL.
Notation hp := (heap L).
Notation gt := (gt V).
Notation wf := (wf N M minL 0).
Implicit Types (g : gt) (gs cs CA : list gt) (R : option Z -> option Z -> gt -> Prop).

(** The branch nodes of the forest are in the heap. *)
Definition binv (h : hp) (gs : list gt) : Prop :=
  Forall (bok N h) (nds gs) /\ NoDup (bids gs) /\ forall j, In j (bids gs) -> j < hfresh h.

(** Only branch nodes in [bi] and new ones were written. *)
Definition bframe (h h' : hp) (bi : list nat) : Prop :=
  hl h' = hl h /\ hnx h' = hnx h /\ hpv h' = hpv h /\ hfresh h <= hfresh h' /\
  forall j, j < hfresh h -> ~ In j bi -> hb h' j = hb h j.

Lemma bframe_bok h h' bi gs : bframe h h' bi -> (forall j, In j (bids gs) -> j < hfresh h /\ ~ In j bi) ->
  Forall (bok N h) (nds gs) -> Forall (bok N h') (nds gs).
Proof.
  clear LL MK HN HL kok. intros (_ & _ & _ & _ & F) H B. eapply bok_frame; [|exact B]. intros j Hj. destruct (H j Hj). now apply F.
Qed.

Lemma wf_nonempty d : forall m lo hi g, (m = 0 -> d <> 0) -> wf m d lo hi g -> ents [g] <> [].
Proof.
  clear LL MK HN kok. induction d as [|d IH]; intros m lo hi [i es|i ks cs] Hm H; cbn [BTreeGhost.wf] in H; try tauto.
  - rewrite ents_GL. destruct H as (_ & _ & H). intros ->. cbn [length] in H. apply Hm; [lia|reflexivity].
  - rewrite ents_GB. destruct H as [_ H]. destruct cs as [|c cs].
    + apply kids_length in H. discriminate.
    + rewrite (ents_app [c] cs : ents (c :: cs) = _). destruct ks as [|k ks]; cbn [kids] in H.
      * destruct cs; [|tauto]. destruct H as [_ H]. intros E. apply app_eq_nil in E as [E _]. revert E. eapply IH; [|exact H].
        destruct d; cbn [mn]; intros; lia.
      * destruct H as (_ & H & _). intros E. apply app_eq_nil in E as [E _]. revert E. eapply IH; [|exact H].
        destruct d; cbn [mn]; intros; lia.
Qed.

Lemma kids_last R lo ks cs hi : kids R lo ks cs hi -> exists CA c, cs = CA ++ [c] /\ length CA = length ks /\
  kl R lo ks CA /\ bl (lb lo ks) hi /\ R (lb lo ks) hi c.
Proof.
  clear LL MK HN kok HL. intros H. pose proof (kids_length H) as E. destruct cs as [|c CA _] using rev_ind; [discriminate|].
  rewrite app_length in E. cbn [length] in E. exists CA, c. split; [reflexivity|]. split; [lia|].
  rewrite <- (app_nil_r ks) in H. apply kids_left in H; [|lia]. destruct H as [H1 H2]. cbn [kids] in H2. tauto.
Qed.

Lemma kids_last_mk R lo ks CA c hi : length CA = length ks -> kl R lo ks CA -> bl (lb lo ks) hi -> R (lb lo ks) hi c ->
  kids R lo ks (CA ++ [c]) hi.
Proof.
  clear LL MK HN kok HL. intros H1 H2 H3 H4. rewrite <- (app_nil_r ks). apply kids_left; [lia|]. split; [exact H2|].
  cbn [kids]. auto.
Qed.

Lemma kids_snoc R lo ks cs k c : kids R lo ks cs (Some k) -> R (Some k) None c -> kids R lo (ks ++ [k]) (cs ++ [c]) None.
Proof.
  clear LL MK HN kok HL. intros H1 H2. apply kids_cut; [eapply kids_length; eauto|]. split; [exact H1|]. cbn [kids bl]. auto.
Qed.

(** A tree whose entries are below [x] can be closed off at [x]. *)
Lemma wf_hi d x : forall m lo g, (m = 0 -> d <> 0) -> wf m d lo None g -> alt x (keys (ents [g])) ->
  wf m d lo (Some x) g /\ bl lo (Some x).
Proof.
  clear LL MK HN kok. intros m lo g Hm W A. split.
  - revert m lo g Hm W A. induction d as [|d IH]; intros m lo [i es|i ks cs] Hm H A; cbn [BTreeGhost.wf] in H; try tauto.
    + rewrite ents_GL in A. cbn [BTreeGhost.wf]. destruct H as (S & F & H). cj; try tauto; try lia.
      rewrite Forall_forall in *. intros k Hk. destruct (F k Hk). split; auto. unfold alt in A. rewrite Forall_forall in A. apply A; auto.
    + rewrite ents_GB in A. cbn [BTreeGhost.wf]. destruct H as [H1 H]. split; [exact H1|].
      destruct (kids_last H) as (CA & c & -> & E & K1 & K2 & K3).
      assert (Hd : mn minL 0 d = 0 -> d <> 0) by (destruct d; cbn [mn]; intros; lia).
      rewrite ents_app in A. unfold alt in A. rewrite keys_app in A. apply Forall_app in A as [_ A].
      apply kids_last_mk; auto.
      pose proof (wf_nonempty Hd K3) as NE. pose proof (proj2 (wf_okc K3)) as B.
      destruct (ents [c]) as [|[y v] l] eqn:Ec; [congruence|]. cbn [keys map] in *.
      apply Forall_inv in A. apply Forall_inv in B. destruct B as [B _]. destruct (lb lo ks); cbn [bl]; auto.
      cbn [lob fst] in B. cbn [fst] in A. lia.
  - pose proof (wf_nonempty Hm W) as NE. pose proof (proj2 (wf_okc W)) as B.
    destruct (ents [g]) as [|[y v] l] eqn:Ec; [congruence|]. cbn [keys map] in *. unfold alt in A.
    apply Forall_inv in A. apply Forall_inv in B. destruct B as [B _]. destruct lo; cbn [bl]; auto.
    cbn [lob fst] in B. cbn [fst] in A. lia.
Qed.

Lemma rec_append_ok (h : hp) id b ks (cs : list nat) key child : hb h id = Some b -> brep N b ks cs -> length ks < N -> length cs = S (length ks) ->
  exists b', rec_append h id key child = Ok (set_branch h id b') /\ brep N b' (ks ++ [key]) (cs ++ [child]).
Proof.
  clear LL MK HN kok HL. intros Hb (Hn & LK & LC & PK & PC) H1 H2. unfold rec_append, getb. rewrite Hb. cbn [of_opt bind].
  destruct (@pre_set_end Z (bk b) ks (bn b) key) as (k1 & E1 & P1 & L1); auto; try lia.
  destruct (@pre_set_end nat (bc b) cs (S (bn b)) child) as (c1 & F1 & Q1 & M1); auto; try lia.
  rewrite E1. cbn [bind]. rewrite F1. cbn [bind]. eexists. split; [reflexivity|].
  unfold brep; cbn [bn bk bc]. rewrite app_length. cbn [length]. cj; auto; lia.
Qed.

Lemma rec_node_ok (h : hp) child : exists b', rec_node N h child = Ok (hfresh h, set_branch (snd (new_branch N h)) (hfresh h) b') /\
  brep N b' [] [child].
Proof.
  clear LL MK HN kok HL. unfold rec_node. cbn [new_branch].
  destruct (empty_brep N) as (Hn & LK & LC & PK & PC).
  destruct (@pre_set_end nat (bc (empty_branch N)) [] 0 child) as (c1 & F1 & Q1 & M1); auto; [cbn [length]; lia|].
  rewrite F1. cbn [bind]. eexists. split; [reflexivity|]. unfold brep; cbn [bn bk bc]. cj; auto; lia.
Qed.


(** Shape of the rebuilt trees (FPTree): all nodes but those on the right edge are full, and [rsh d g n]
    says how many leaves there are. *)
Fixpoint perf (d : nat) g : Prop :=
  match d, g with
  | 0, GL _ _ => True
  | S d', GB _ ks cs => length ks = N /\ Forall (perf d') cs
  | _, _ => False
  end.
Fixpoint rsh (d : nat) g (n : nat) : Prop :=
  match d, g with
  | 0, GL _ _ => n = 1
  | S d', GB _ ks cs => exists CA c q, cs = CA ++ [c] /\ length ks = length CA /\ Forall (perf d') CA /\ rsh d' c q /\
      n = length CA * S N ^ d' + q
  | _, _ => False
  end.

(** Result of registering leaf [i] at the right end of [g]. *)
Definition rec_post (hyb : bool) (m d : nat) (lo : option Z) (h : hp) g (i : nat) (es : list (Z * V)) (h' : hp) (r : option split) : Prop :=
  bframe h h' (bids [g]) /\ exists gs, binv h' gs /\ lvs gs = lvs [g] ++ [(i, es)] /\
  (forall j, In j (bids gs) -> In j (bids [g]) \/ hfresh h <= j) /\
  match r with
  | None => exists g', gs = [g'] /\ gid g' = gid g /\ wf m d lo None g' /\ (hyb = false -> forall n, rsh d g n -> rsh d g' (S n))
  | Some sp => exists g1 g2 key, gs = [g1; g2] /\ gid g1 = gid g /\ sp = Split key (gid g) (gid g2) /\
      wf 0 d lo (Some key) g1 /\ bl lo (Some key) /\ wf 0 d (Some key) None g2 /\
      (hyb = false -> forall n, rsh d g n -> n = S N ^ d /\ perf d g1 /\ rsh d g2 1)
  end.

Lemma binv_GB h i ks cs : binv h [GB i ks cs] <-> binv h cs /\ ~ In i (bids cs) /\ i < hfresh h /\ bok N h (i, (ks, map (@gid V) cs)).
Proof.
  clear LL MK HN kok HL. unfold binv. rewrite nds_GB, bids_GB. cbn [In]. split.
  - intros (F & ND & LT). inversion F; subst. inversion ND; subst. cj; auto.
  - intros ((F & ND & LT) & H1 & H2 & H3). split; [constructor; auto|]. split; [constructor; auto|]. intros j [<-|Hj]; auto.
Qed.

Lemma binv_app h a b : binv h (a ++ b) <-> binv h a /\ binv h b /\ (forall j, In j (bids a) -> In j (bids b) -> False).
Proof.
  clear LL MK HN kok HL. unfold binv. rewrite nds_app, bids_app, Forall_app. split.
  - intros ((F1 & F2) & ND & LT). apply NoDup_app_inv in ND as (N1 & N2 & N3). cj; auto; intros; apply LT, in_or_app; auto.
  - intros ((F & ND & LT) & (F' & ND' & LT') & H). cj; auto.
    + apply NoDup_app_mk; auto.
    + intros j Hj. apply in_app_or in Hj as [?|?]; auto.
Qed.

Lemma binv_frame h h' bi gs : bframe h h' bi -> (forall j, In j (bids gs) -> ~ In j bi) -> binv h gs -> binv h' gs.
Proof.
  clear LL MK HN kok HL. intros F H (B1 & B2 & B3). split.
  - eapply bframe_bok; eauto.
  - split; [exact B2|]. intros j Hj. specialize (B3 j Hj). destruct F as (_ & _ & _ & F & _). lia.
Qed.

Lemma binv_GL h i es : binv h [GL i es].
Proof. clear LL MK HN kok HL. unfold binv, bids, nds. cbn. cj; [constructor|constructor|tauto]. Qed.

Lemma bids_GL i es : bids [GL i es : gt] = []. Proof. reflexivity. Qed.

(** Appending a child to node [i]. *)
Lemma append_post h h1 i ks cs b key c bi : bframe h h1 bi -> hb h1 i = Some b -> brep N b ks (map (@gid V) cs) -> length ks < N -> length cs = S (length ks) ->
  binv h1 (cs ++ [c]) -> ~ In i (bids (cs ++ [c])) -> i < hfresh h ->
  exists h2, rec_append h1 i key (gid c) = Ok h2 /\ bframe h h2 (i :: bi) /\ binv h2 [GB i (ks ++ [key]) (cs ++ [c])].
Proof.
  clear LL MK HN kok HL. intros F Hb BR L1 L2 B NI LT.
  destruct (rec_append_ok key (gid c) Hb BR L1) as (b' & E & BR'); [rewrite map_length; lia|].
  destruct F as (F1 & F2 & F3 & F4 & F5).
  exists (set_branch h1 i b'). split; [exact E|]. split.
  - unfold bframe. cbn [set_branch hl hnx hpv hfresh hb]. cj; auto. intros j Hj Hn. cbn [In] in Hn.
    rewrite upd_other by (intros ->; tauto). apply F5; tauto.
  - apply binv_GB. cj.
    + eapply (@binv_frame h1 _ [i]); [|intros j Hj [<-|[]]; auto|exact B].
      unfold bframe. cbn [set_branch hl hnx hpv hfresh hb]. cj; auto. intros j Hj Hn. cbn [In] in Hn.
      apply upd_other. intros ->; tauto.
    + exact NI.
    + cbn [set_branch hfresh]. lia.
    + exists b'. cbn [set_branch hb fst snd]. rewrite upd_same'. split; [reflexivity|]. now rewrite map_app.
Qed.

(** A new node above [c]. *)
Lemma node_post h h1 c gs bi : bframe h h1 bi -> binv h1 (gs ++ [c]) ->
  exists h2, rec_node N h1 (gid c) = Ok (hfresh h1, h2) /\ bframe h h2 bi /\ binv h2 (gs ++ [GB (hfresh h1) [] [c]]).
Proof.
  clear LL MK HN kok HL. intros F B. destruct (rec_node_ok h1 (gid c)) as (b' & E & BR).
  destruct F as (F1 & F2 & F3 & F4 & F5).
  eexists. split; [exact E|]. split.
  - unfold bframe. cbn [new_branch snd set_branch hl hnx hpv hfresh hb]. cj; auto. intros j Hj Hn.
    rewrite !upd_other by lia. auto.
  - assert (FR : bframe h1 (set_branch (snd (new_branch N h1)) (hfresh h1) b') []).
    { unfold bframe. cbn [new_branch snd set_branch hl hnx hpv hfresh hb]. cj; auto. intros j Hj Hn.
      rewrite !upd_other by lia. auto. }
    assert (B' := binv_frame FR (fun j _ H => H) B).
    apply binv_app in B as (Ba & Bb & Bc). apply binv_app in B' as (Ba' & Bb' & _).
    apply binv_app. cj; auto.
    + apply binv_GB. cj; auto.
      * intros Hi. apply (proj2 (proj2 Bb)) in Hi. lia.
      * exists b'. cbn [set_branch hb fst snd]. rewrite upd_same'. split; [reflexivity|]. exact BR.
    + intros j Hj. rewrite bids_GB. intros [<-|Hj2]; eauto. apply (proj2 (proj2 Ba)) in Hj. lia.
Qed.

Lemma getb_some (h : hp) id b : hb h id = Some b -> getb h id = Ok b.
Proof. unfold getb. now intros ->. Qed.

Lemma rec_branch_1 hyb (h : hp) id leaf : rec_branch N O hyb h 1 id leaf =
  do b <- getb h id; do l <- getl h leaf; do k <- lo_minkey O l;
  if bn b =? N then do r <- rec_node N h leaf; Ok (snd r, Some (Split k id (fst r)))
  else do h1 <- rec_append h id k leaf; Ok (h1, None).
Proof. reflexivity. Qed.

Lemma rec_branch_2 hyb (h : hp) d id leaf : rec_branch N O hyb h (S (S d)) id leaf =
  do b <- getb h id; do c <- aget (bc b) (bn b); do r <- rec_branch N O hyb h (S d) c leaf;
  match r with
  | (h1, None) => Ok (h1, None)
  | (h1, Some si) =>
    do b1 <- getb h1 id;
    if bn b1 =? N then
      if hyb then
        do r2 <- split_branch N h1 id (skey si);
        let '(h2, sp) := r2 in
        do bh <- getb h2 (sright sp);
        do ks <- aset (bk bh) (bn bh) (skey si);
        do c1 <- aset (bc bh) (bn bh) (sleft si);
        do c2 <- aset c1 (S (bn bh)) (sright si);
        Ok (set_branch h2 (sright sp) (Branch (S (bn bh)) ks c2), Some sp)
      else
        do r2 <- rec_node N h1 (sright si); Ok (snd r2, Some (Split (skey si) id (fst r2)))
    else do h2 <- rec_append h1 id (skey si) (sright si); Ok (h2, None)
  end.
Proof. reflexivity. Qed.

(** The last child of a full right half is rewritten in place and a child appended. *)
Lemma host_append_ok b ks (CA : list nat) c key child : brep N b ks (CA ++ [c]) -> length ks < N -> length CA = length ks ->
  exists ks' c1 c2, aset (bk b) (bn b) key = Ok ks' /\ aset (bc b) (bn b) c = Ok c1 /\ aset c1 (S (bn b)) child = Ok c2 /\
    brep N (Branch (S (bn b)) ks' c2) (ks ++ [key]) ((CA ++ [c]) ++ [child]).
Proof.
  clear LL MK HN kok HL. intros (Hn & LK & LC & PK & PC) H1 H2.
  destruct (@pre_set_end Z (bk b) ks (bn b) key) as (k1 & E1 & P1 & L1); auto; try lia.
  destruct (@pre_set nat (bc b) CA c [] (bn b) c) as (c0 & F0 & Q0 & M0); auto; try lia.
  destruct (@pre_set_end nat c0 (CA ++ [c]) (S (bn b)) child) as (c1 & F1 & Q1 & M1); auto; try (rewrite app_length; cbn [length]); try lia.
  exists k1, c0, c1. cj; auto. unfold brep; cbn [bn bk bc]. rewrite app_length. cbn [length]. cj; auto; lia.
Qed.

Lemma rec_branch_ok hyb d : forall m h g lo i l x v es, wf m (S d) lo None g -> binv h [g] -> hl h i = Some l -> lrep l ((x, v) :: es) ->
  alt x (keys (ents [g])) -> sorted ((x, v) :: es) -> minL <= S (length es) <= M ->
  exists h' r, rec_branch N O hyb h (S d) (gid g) i = Ok (h', r) /\ rec_post hyb m (S d) lo h g i ((x, v) :: es) h' r.
Proof.
  induction d as [|d IH]; intros m h g lo i l x v es W B Hl LR AL SO LE; (destruct g as [|id ks cs]; [contradiction W|]);
    destruct W as [Hm K]; pose proof (kids_length K) as LC; pose proof B as B0; apply binv_GB in B as (BC & NI & LT & b & Hb & BR);
    cbn [fst snd] in Hb, BR; cbn [gid]; destruct BR as (Hn & BR');
    assert (BR := conj Hn BR' : brep N b ks (map (@gid V) cs)).
  - rewrite rec_branch_1, (getb_some Hb). cbn [bind].
    assert (WL : wf minL 0 (Some x) None (GL i ((x, v) :: es))).
    { cbn [BTreeGhost.wf]. cj; auto; try (cbn [length]; lia). apply ssorted_cons in SO as [SO1 SO2]. cbn [keys map fst]. constructor.
      - split; cbn; auto; lia.
      - unfold agt in SO2. eapply Forall_impl; [|exact SO2]. intros y Hy. split; cbn in *; auto; lia. }
    assert (W1 : wf 0 1 lo (Some x) (GB id ks cs) /\ bl lo (Some x)).
    { apply wf_hi; auto. split; [lia|exact K]. }
    destruct W1 as [W1 BL1].
    unfold getl. rewrite Hl. cbn [of_opt bind]. rewrite (MK LR). cbn [bind].
    assert (FR : bframe h h (bids cs)) by (unfold bframe; cj; auto).
    destruct (Nat.eqb_spec (bn b) N) as [EN|EN].
    + destruct (@node_post h h (GL i ((x, v) :: es)) [GB id ks cs] (bids cs) FR) as (h2 & E & F & B2).
      { apply binv_app. cj; [assumption|apply binv_GL|intros ? _ []]. }
      cbn [gid] in E. rewrite E. cbn [bind fst snd]. do 2 eexists. split; [reflexivity|]. split.
      { destruct F as (F1 & F2 & F3 & F4 & F5). unfold bframe. cj; auto. intros j Hj Hj2. apply F5; auto.
        rewrite bids_GB in Hj2. cbn [In] in Hj2. tauto. }
      eexists. split; [exact B2|]. split; [rewrite lvs_app; reflexivity|]. split.
      * intros j. rewrite bids_app, !bids_GB, bids_GL, in_app_iff. cbn [In]. intuition lia.
      * do 3 eexists. split; [reflexivity|]. cbn [gid]. split; [reflexivity|]. split; [reflexivity|]. split; [exact W1|]. split; [exact BL1|].
        split; [split; [cbn [length]; lia|]; split; [exact I|exact WL]|].
        intros _ n (CA & c & q & -> & EC & FA & Hc & ->). cbn [Nat.pow perf rsh]. rewrite app_length in LC. cbn [length] in LC.
        destruct c as [ci ce|]; [|contradiction Hc]. cbn [rsh] in Hc. subst q. cj; try lia.
        { apply Forall_app. split; [exact FA|now repeat constructor]. }
        exists [], (GL i ((x, v) :: es)), 1. cj; auto.
    + destruct (@append_post h h id ks cs b x (GL i ((x, v) :: es)) (bids cs) FR Hb BR) as (h2 & E & F & B2); auto; try lia.
      { apply binv_app. cj; [assumption|apply binv_GL|intros ? _ []]. }
      { rewrite bids_app, bids_GL, app_nil_r. exact NI. }
      cbn [gid] in E. rewrite E. cbn [bind]. do 2 eexists. split; [reflexivity|]. split.
      { rewrite bids_GB. exact F. }
      eexists. split; [exact B2|]. split; [rewrite !lvs_GB, lvs_app; reflexivity|]. split.
      * intros j. rewrite !bids_GB, bids_app, bids_GL, app_nil_r. auto.
      * eexists. split; [reflexivity|]. cbn [gid]. split; [reflexivity|]. split.
        { cbn [BTreeGhost.wf]. rewrite app_length. cbn [length].
          split; [lia|]. apply kids_snoc; auto. apply W1. }
        intros _ n (CA & c & q & -> & EC & FA & Hc & ->). cbn [rsh]. destruct c as [ci ce|]; [|contradiction Hc]. cbn [rsh] in Hc. subst q.
        exists (CA ++ [GL ci ce]), (GL i ((x, v) :: es)), 1. rewrite !app_length in *. cbn [length Nat.pow] in *. cj; try lia; auto.
        apply Forall_app. split; [exact FA|now repeat constructor].
  - rewrite rec_branch_2, (getb_some Hb). cbn [bind].
    destruct (kids_last K) as (CA & c & -> & LA & K1 & K2 & K3).
    rewrite (kid_at (CB := []) BR) by lia. cbn [bind].
    apply binv_app in BC as (BA & Bc & BD).
    rewrite ents_GB, ents_app in AL. unfold alt in AL. rewrite keys_app in AL. apply Forall_app in AL as [AL1 AL2].
    destruct (IH _ h c _ i l x v es K3 Bc Hl LR AL2 SO LE) as (h1 & r & E & FR & gs & B1 & LV & NB & P).
    rewrite E. cbn [bind].
    assert (NIc : ~ In id (bids CA) /\ ~ In id (bids [c])).
    { rewrite bids_app, in_app_iff in NI. tauto. }
    assert (Hb1 : hb h1 id = Some b).
    { rewrite <- Hb. apply (proj2 (proj2 (proj2 (proj2 FR)))); tauto. }
    assert (BA1 : binv h1 CA). { eapply binv_frame; [exact FR| |exact BA]. intros j H1 H2. eapply BD; eauto. }
    assert (BAg : binv h1 (CA ++ gs)).
    { apply binv_app. cj; auto. intros j H1 H2. destruct (NB j H2) as [H3|H3]; [eapply BD; eauto|].
      apply (proj2 (proj2 BA)) in H1. lia. }
    assert (NIg : ~ In id (bids (CA ++ gs))).
    { rewrite bids_app, in_app_iff. intros [?|H]; [tauto|]. destruct (NB _ H); [tauto|lia]. }
    assert (FR' : bframe h h1 (id :: bids (CA ++ [c]))).
    { destruct FR as (F1 & F2 & F3 & F4 & F5). unfold bframe. cj; auto. intros j Hj Hj2. apply F5; auto.
      cbn [In] in Hj2. rewrite bids_app, in_app_iff in Hj2. tauto. }
    assert (FRf : hfresh h <= hfresh h1) by apply FR.
    assert (NBg : forall j, In j (bids (CA ++ gs)) -> In j (bids (CA ++ [c])) \/ hfresh h <= j).
    { intros j. rewrite !bids_app, !in_app_iff. intros [?|Hj]; auto. destruct (NB j Hj); auto. }
    destruct r as [sp|].
    + destruct P as (g1 & g2 & key & -> & Eg1 & -> & Wg1 & BLk & W2 & SH). cbn [skey sright sleft]. rewrite (getb_some Hb1). cbn [bind].
      assert (EM : map (@gid V) (CA ++ [c]) = map (@gid V) (CA ++ [g1])) by (rewrite !map_app; cbn [map]; now rewrite Eg1).
      rewrite EM in BR. change [g1; g2] with ([g1] ++ [g2]) in *. rewrite app_assoc in BAg, NIg, NBg.
      assert (KG : kids (wf (mn minL 0 (S d)) (S d)) lo ks (CA ++ [g1]) (Some key)) by (apply kids_last_mk; auto).
      assert (LVF : lvs ((CA ++ [g1]) ++ [g2]) = lvs [GB id ks (CA ++ [c])] ++ [(i, (x, v) :: es)]).
      { rewrite lvs_GB, !lvs_app, <- !app_assoc, <- LV. rewrite lvs_app. reflexivity. }
      destruct (Nat.eqb_spec (bn b) N) as [EN|EN].
      * destruct hyb.
        -- (* HPBPTree: split the node *)
           destruct (@split_branch_ok L N h1 id b ks (map (@gid V) (CA ++ [g1])) key Hb1 BR) as (km & a & sk & bb & ca & cb & b1 & b2 & _ & Eks & Ecs & _ & Lca & BR1 & BR2 & ES);
             [lia|rewrite map_length, app_length; cbn [length]; lia|exact HN|].
           rewrite ES. cbn [bind sright]. unfold getb. cbn [set_branch new_branch snd hb].
           apply map_eq_app in Ecs as (GA & GC & Ecs & EGA & EGC).
           assert (LGA : length GA = S (length a)) by (rewrite <- Lca, <- EGA, map_length; reflexivity).
           assert (LGC : length GC = S (length bb)).
           { assert (Q : length (CA ++ [g1]) = length (GA ++ GC)) by now rewrite Ecs. rewrite !app_length in Q. cbn [length] in Q.
             assert (Q2 : length ks = length (a ++ sk :: bb)) by now rewrite Eks. rewrite app_length in Q2. cbn [length] in Q2. lia. }
           destruct GC as [|gl GC' _] using rev_ind; [discriminate LGC|]. rewrite app_length in LGC. cbn [length] in LGC.
           assert (gl = g1 /\ CA = GA ++ GC').
           { rewrite app_assoc in Ecs. apply app_inj_tail in Ecs as [Ecs ->]. auto. }
           destruct H as [-> ECA].
           rewrite upd_other by lia. rewrite upd_same'. cbn [of_opt bind].
           rewrite map_app in EGC. cbn [map] in EGC. rewrite <- EGC in BR2.
           destruct (@host_append_ok b2 bb (map (@gid V) GC') (gid g1) key (gid g2) BR2) as (ks' & cs1 & cs2 & A1 & A2 & A3 & BR3).
           { assert (Q2 : length ks = length (a ++ sk :: bb)) by now rewrite Eks. rewrite app_length in Q2. cbn [length] in Q2. lia. }
           { rewrite map_length. lia. }
           rewrite A1. cbn [bind]. rewrite <- Eg1. rewrite A2. cbn [bind]. rewrite A3. cbn [bind].
           do 2 eexists. split; [reflexivity|]. unfold set_branch, new_branch. cbn [snd hl hb hnx hpv hfresh].
           set (b3 := Branch (S (bn b2)) ks' cs2).
           set (hz := Heap _ _ _ _ _). assert (FZ : bframe h1 hz [id]).
           { unfold bframe, hz. cbn [hl hb hnx hpv hfresh]. cj; auto. intros j Hj Hn2. cbn [In] in Hn2.
             rewrite upd_other by lia. rewrite upd_other by (intros ->; tauto). rewrite !upd_other by lia. reflexivity. }
           assert (BZ : binv hz ((CA ++ [g1]) ++ [g2])).
           { eapply binv_frame; [exact FZ| |exact BAg]. intros j Hj [<-|[]]. auto. }
           assert (ENW : ~ In (hfresh h1) (bids ((CA ++ [g1]) ++ [g2]))).
           { intros Hi. apply (proj2 (proj2 BAg)) in Hi. lia. }
           assert (EALL : (CA ++ [g1]) ++ [g2] = GA ++ ((GC' ++ [g1]) ++ [g2])) by (rewrite ECA, <- !app_assoc; reflexivity).
           rewrite EALL in BZ, ENW, NIg. apply binv_app in BZ as (BZ1 & BZ2 & BZ3). rewrite bids_app, in_app_iff in ENW, NIg.
           split.
           { rewrite bids_GB. destruct FZ as (Z1 & Z2 & Z3 & Z4 & Z5). destruct FR' as (F1 & F2 & F3 & F4 & F5). unfold bframe.
             rewrite Z1, Z2, Z3. cj; auto; try lia. intros j Hj Hn2. rewrite Z5; [auto|lia|]. intros [<-|[]]. apply Hn2. now left. }
           exists ([GB id a GA] ++ [GB (hfresh h1) (bb ++ [key]) ((GC' ++ [g1]) ++ [g2])]). split.
           { apply binv_app. split; [|split].
             - apply binv_GB. split; [exact BZ1|]. split; [tauto|]. split; [unfold hz; cbn [hfresh]; lia|]. exists b1. cbn [fst snd]. unfold hz. cbn [hb].
               rewrite upd_other by lia. rewrite upd_same'. split; [reflexivity|]. rewrite EGA. exact BR1.
             - apply binv_GB. split; [exact BZ2|]. split; [tauto|]. split; [unfold hz; cbn [hfresh]; lia|]. exists b3. cbn [fst snd]. unfold hz. cbn [hb].
               rewrite upd_same'. split; [reflexivity|]. unfold b3. rewrite !map_app. cbn [map]. exact BR3.
             - intros j. rewrite !bids_GB. cbn [In]. intros [<-|Q1] [Q2|Q2].
               + lia.
               + apply NIg. auto.
               + subst j. apply ENW. auto.
               + eapply BZ3; eauto. }
           split.
           { rewrite <- LVF, EALL, !lvs_app, !lvs_GB, !lvs_app, <- ?app_assoc. reflexivity. }
           split.
           { intros j. rewrite bids_app, !bids_GB, in_app_iff. cbn [In]. rewrite EALL, bids_app in NBg.
             intros [[<-|Q]|[<-|Q]]; auto.
             - destruct (NBg j); auto. apply in_or_app; auto.
             - destruct (NBg j); auto. apply in_or_app; auto. }
           rewrite Eks, ECA, <- app_assoc in KG. apply kids_cut in KG as [KG1 KG2]; [|exact LGA].
           do 3 eexists. split; [reflexivity|]. cbn [gid]. split; [reflexivity|]. split; [reflexivity|]. split; [|split].
           { split; [|exact KG1]. assert (Q2 : length ks = length (a ++ sk :: bb)) by now rewrite Eks. rewrite app_length in Q2. cbn [length] in Q2. lia. }
           { eapply kids_bl; eauto. }
           { split; [|discriminate]. split; [|apply kids_snoc; auto]. assert (Q2 : length ks = length (a ++ sk :: bb)) by now rewrite Eks.
             rewrite app_length in *. cbn [length] in *. lia. }
        -- assert (BX : binv h1 ([GB id ks (CA ++ [g1])] ++ [g2])).
           { apply binv_app in BAg as (B3 & B4 & B5). rewrite bids_app, in_app_iff in NIg. apply binv_app. cj; auto.
             - apply binv_GB. cj; auto; try tauto; try lia. exists b. auto.
             - intros j. rewrite bids_GB. cbn [In]. intros [<-|H1] H2; [tauto|eauto]. }
           destruct (@node_post h h1 g2 [GB id ks (CA ++ [g1])] (id :: bids (CA ++ [c])) FR' BX) as (h2 & E2 & F2 & B2).
           rewrite E2. cbn [bind fst snd]. do 2 eexists. split; [reflexivity|]. split.
           { rewrite bids_GB. exact F2. }
           eexists. split; [exact B2|]. split.
           { rewrite <- LVF, !lvs_app, !lvs_GB, lvs_app. reflexivity. }
           split.
           { intros j. rewrite bids_app, !bids_GB, in_app_iff. cbn [In].
             intros [[<-|H]|[<-|H]]; auto; destruct (NBg j) as [H1|H1]; auto; rewrite bids_app, in_app_iff; auto. }
           { do 3 eexists. split; [reflexivity|]. cbn [gid]. split; [reflexivity|]. split; [reflexivity|]. split; [split; [lia|exact KG]|].
             split; [eapply kids_bl; exact KG|]. split; [split; [cbn [length]; lia|]; split; [exact I|exact W2]|].
             intros _ n (CA' & c' & q & EC & EL & FA & Hc & ->). apply app_inj_tail in EC as [<- <-].
             destruct (SH eq_refl q Hc) as (-> & P1 & P2). cj.
             - cbn [Nat.pow]. rewrite <- EL, <- Hn, EN. lia.
             - cbn [perf]. split; [lia|]. apply Forall_app. split; auto.
             - exists [], g2, 1. cj; auto. }
      * destruct (@append_post h h1 id ks (CA ++ [g1]) b key g2 (bids (CA ++ [c]))) as (h2 & E2 & F2 & B2); auto; try lia.
        { destruct FR as (F1 & F2 & F3 & F4 & F5). unfold bframe. cj; auto. intros j Hj Hj2. apply F5; auto.
          rewrite bids_app, in_app_iff in Hj2. tauto. }
        { rewrite app_length in *. cbn [length] in *. lia. }
        rewrite E2. cbn [bind]. do 2 eexists. split; [reflexivity|]. split.
        { rewrite bids_GB. exact F2. }
        eexists. split; [exact B2|]. split.
        { rewrite <- LVF, lvs_GB. reflexivity. }
        split.
        { intros j. rewrite !bids_GB. cbn [In]. intros [?|H]; auto. destruct (NBg j H); auto. }
        { eexists. split; [reflexivity|]. cbn [gid]. split; [reflexivity|]. split.
          { cbn [BTreeGhost.wf]. rewrite app_length. cbn [length]. split; [lia|]. apply kids_snoc; auto. }
          intros Eh n (CA' & c' & q & EC & EL & FA & Hc & ->). apply app_inj_tail in EC as [<- <-].
          destruct (SH Eh q Hc) as (-> & P1 & P2). exists (CA ++ [g1]), g2, 1. rewrite !app_length. cbn [length]. cj; auto; try lia.
          apply Forall_app. split; auto. }
    + destruct P as (g' & -> & Eg & W' & SH). do 2 eexists. split; [reflexivity|]. split.
      { rewrite bids_GB. exact FR'. }
      exists [GB id ks (CA ++ [g'])]. split.
      { apply binv_GB. cj; auto; try lia.
        exists b. split; [exact Hb1|]. cbn [fst snd]. rewrite map_app in *. cbn [map] in *. rewrite Eg. exact BR. }
      split.
      { rewrite !lvs_GB, !lvs_app, <- app_assoc, <- LV. reflexivity. }
      split.
      { intros j. rewrite !bids_GB. cbn [In]. intros [?|H]; auto. destruct (NBg j H); auto. }
      { eexists. split; [reflexivity|]. cbn [gid]. split; [reflexivity|]. split.
        { cbn [BTreeGhost.wf]. split; [lia|]. apply kids_last_mk; auto. }
        intros Eh n (CA' & c' & q & EC & EL & FA & Hc & ->). apply app_inj_tail in EC as [<- <-].
        exists CA, g', (S q). cj; auto. }
Qed.

(** A tree under reconstruction: the branch part of [tinv]. *)
Definition rinvm (m : nat) (t : tree L) g : Prop :=
  gid g = troot t /\ (exists d, tdepth t = S d) /\ wf m (tdepth t) None None g /\ binv (th t) [g].
Notation rinv := (rinvm 1).

Definition same_leaves (h h' : hp) := hl h' = hl h /\ hnx h' = hnx h /\ hpv h' = hpv h /\ hfresh h <= hfresh h'.

Lemma rec_insert_ok hyb m t g i l x v es : m <= 1 -> rinvm m t g -> hl (th t) i = Some l -> lrep l ((x, v) :: es) ->
  alt x (keys (ents [g])) -> sorted ((x, v) :: es) -> minL <= S (length es) <= M ->
  exists t' g', rec_insert N O hyb t i = Ok t' /\ rinvm m t' g' /\ lvs [g'] = lvs [g] ++ [(i, (x, v) :: es)] /\
    (hyb = false -> forall n, rsh (tdepth t) g n -> rsh (tdepth t') g' (S n)) /\ same_leaves (th t) (th t').
Proof.
  intros Hm (Eg & (d & Ed) & W & B) Hl LR AL SO LE. destruct t as [h r dp]. cbn [troot tdepth th] in *. subst dp r.
  destruct (rec_branch_ok hyb W B Hl LR AL SO LE) as (h1 & r & E & FR & gs & B1 & LV & NB & P).
  unfold rec_insert. cbn [troot tdepth th]. rewrite E. cbn [bind]. destruct FR as (F1 & F2 & F3 & F4 & F5).
  destruct r as [sp|].
  - destruct P as (g1 & g2 & key & -> & Eg1 & -> & Wg1 & _ & W2 & SH). cbn [skey sleft sright new_branch].
    destruct (empty_brep N) as (Hn & LK & LC & PK & PC).
    destruct (@pre_set_end Z (bk (empty_branch N)) [] 0 key) as (k1 & E1 & P1 & L1); auto; [cbn [length]; lia|].
    destruct (@pre_set_end nat (bc (empty_branch N)) [] 0 (gid g)) as (c1 & G1 & Q1 & M1); auto; [cbn [length]; lia|].
    destruct (@pre_set_end nat c1 ([] ++ [gid g]) 1 (gid g2)) as (c2 & G2 & Q2 & M2); auto; [cbn [length app]; lia|].
    rewrite E1. cbn [bind]. rewrite G1. cbn [bind]. rewrite G2. cbn [bind].
    set (b := Branch 1 k1 c2). do 2 eexists. split; [reflexivity|]. split; [|split; [|split; [|]]].
    + unfold rinvm. cbn [troot tdepth th]. instantiate (1 := GB (hfresh h1) [key] [g1; g2]). cbn [gid].
      split; [reflexivity|]. split; [eauto|]. split.
      * split; [cbn [length]; lia|].
        cbn [kids].
        split; [exact I|]. split; [exact Wg1|]. split; [exact I|exact W2].
      * apply binv_GB. cj.
        -- eapply (@binv_frame h1 _ []); [|auto|exact B1]. unfold bframe. cbn [set_branch hl hnx hpv hfresh hb]. cj; auto.
           intros j Hj _. rewrite !upd_other by lia. reflexivity.
        -- intros Hi. apply (proj2 (proj2 B1)) in Hi. lia.
        -- cbn [set_branch hfresh]. lia.
        -- exists b. cbn [set_branch hb fst snd]. rewrite upd_same'. split; [reflexivity|].
           unfold brep, b; cbn [bn bk bc length map]. rewrite Eg1. cj; auto; lia.
    + rewrite lvs_GB. exact LV.
    + intros Eh n Hr. destruct (SH Eh n Hr) as (-> & Pa & Pb). exists [g1], g2, 1. cj; auto. cbn [length tdepth]. lia.
    + unfold same_leaves. cbn [th set_branch hl hnx hpv hfresh]. cj; auto.
  - destruct P as (g' & -> & Eg & W' & SH). do 2 eexists. split; [reflexivity|]. split; [|split; [exact LV|split; [exact SH|]]].
    + unfold rinvm. cbn [troot tdepth th]. split; [exact Eg|]. split; [eauto|]. split; auto.
    + unfold same_leaves. cbn [th]. auto.
Qed.

Lemma rec_chain_ok hyb m : m <= 1 -> forall ls t g p fuel, rinvm m t g -> Forall (lok lrep (th t)) ls -> seg (th t) p (map fst ls) None ->
  sorted (ents [g] ++ flat_map snd ls) -> Forall (fun q => minL <= length (snd q) <= M) ls -> length ls < fuel ->
  exists t' g', rec_chain N O hyb fuel t (hbd (map fst ls) None) = Ok t' /\ rinvm m t' g' /\ lvs [g'] = lvs [g] ++ ls /\
    (hyb = false -> forall n, rsh (tdepth t) g n -> rsh (tdepth t') g' (n + length ls)) /\ same_leaves (th t) (th t').
Proof.
  intros Hm. induction ls as [|[i es] ls IH]; intros t g p fuel R F S SO FL Hf; cbn [map hbd hd rec_chain fst].
  - destruct fuel; [lia|]. exists t, g. rewrite app_nil_r. unfold same_leaves. cj; auto. intros _ n. now rewrite Nat.add_0_r.
  - cbn [length] in Hf. destruct fuel as [|fuel]; [lia|]. cbn [rec_chain map hd].
    apply Forall_cons_iff in F as [(l & Hl & LR) F]. apply Forall_cons_iff in FL as [LE FL]. cbn [fst snd] in *.
    cbn [map seg fst] in S. destruct S as (S1 & S2 & S3). cbn [flat_map snd] in SO.
    destruct es as [|[x v] es]; [cbn [length] in LE; lia|].
    pose proof SO as SO'. apply sorted_app in SO' as (SO1 & SO2 & SO3). apply sorted_app in SO2 as (SO4 & _ & _).
    destruct (@rec_insert_ok hyb m t g i l x v es Hm R Hl LR) as (t1 & g1 & E & R1 & LV & SH1 & (Q1 & Q2 & Q3 & Q4)); auto.
    { unfold alt. rewrite Forall_forall. intros y Hy. apply SO3; auto. rewrite keys_app. apply in_or_app. left. left. reflexivity. }
    rewrite E. cbn [bind]. rewrite Q2, S2.
    destruct (IH t1 g1 (Some i) fuel R1) as (t2 & g2 & E2 & R2 & LV2 & SH2 & (T1 & T2 & T3 & T4)).
    + eapply lok_frame; [|exact F]. now rewrite Q1.
    + eapply seg_frame; [|exact S3]. intros j _. now rewrite Q2, Q3.
    + unfold ents. rewrite LV, flat_map_app. cbn [flat_map snd]. rewrite app_nil_r, <- app_assoc. exact SO.
    + exact FL.
    + lia.
    + exists t2, g2. split; [exact E2|]. split; [exact R2|]. split; [rewrite LV2, LV, <- app_assoc; reflexivity|].
      split; [intros Eh n Hr; replace (n + length ((i, (x, v) :: es) :: ls)) with (S n + length ls) by (cbn [length]; lia); auto|].
      unfold same_leaves. rewrite T1, T2, T3, Q1, Q2, Q3. cj; auto. lia.
Qed.

Lemma wf_leaf_sizes d : forall m lo hi g, wf m d lo hi g -> minL <= m \/ d <> 0 -> Forall (fun q => minL <= length (snd q) <= M) (lvs [g]).
Proof.
  clear LL MK HN kok HL lrep O. induction d as [|d IH]; intros m lo hi [i es|i ks cs] W H; try contradiction W.
  - destruct W as (_ & _ & W). constructor; [|constructor]. cbn [snd]. lia.
  - destruct W as [_ K]. rewrite lvs_GB. unfold lvs. rewrite Forall_forall. intros q Hq. apply in_flat_map in Hq as (c & Hc & Hq).
    destruct (kids_mono K Hc) as (x & y & _ & Wc). eapply IH in Wc; [|destruct d; cbn [mn]; lia].
    rewrite Forall_forall in Wc. apply Wc. unfold lvs. cbn [flat_map]. rewrite app_nil_r. exact Hq.
Qed.

Notation tinvf := (tinvf N M lrep minL 0).

(** recover() gives a tree over the leaves linked from the first one. *)
Lemma recover_list f (h : hp) LS : Forall (lok lrep h) LS -> NoDup (map fst LS) -> (forall i, In i (map fst LS) -> i < hfresh h) ->
  seg h None (map fst LS) None -> sorted (flat_map snd LS) -> Forall (fun q => length (snd q) <= M) LS ->
  (1 < length LS -> Forall (fun q => minL <= length (snd q)) LS) -> hd_error (map fst LS) = Some f ->
  exists t' g', recover N O false h f = Ok t' /\
    (gid g' = troot t' /\ wf (rmin (tdepth t')) (tdepth t') None None g' /\ inv N lrep (th t') [] [g'] [] /\
     ents [g'] = flat_map snd LS /\ hd_error (lids [g']) = Some f) /\ lvs [g'] = LS /\ rsh (tdepth t') g' (length LS).
Proof.
  intros IL0 ND0 LT0 IS0 SO0' CAP MIN Ef.
  destruct LS as [|[i0 es0] ls] eqn:EL; [discriminate Ef|]. cbn [map fst hd_error] in Ef. injection Ef as ->.
  pose proof IL0 as IL. pose proof IS0 as IS.
  cbn [app map fst seg] in IS. destruct IS as (S1 & S2 & S3).
  pose proof (Forall_inv IL) as (l0 & Hl0 & LR0). cbn [fst snd] in Hl0, LR0. apply Forall_inv_tail in IL.
  pose proof ND0 as ND. pose proof LT0 as LT. cbn [app map fst] in ND, LT.
  pose proof SO0' as SO. cbn [flat_map snd] in SO.
  unfold recover, getl. cbv zeta. change (hl (crash h) f) with (hl h f). change (hnx (crash h) f) with (hnx h f). rewrite Hl0. cbn [of_opt bind]. rewrite S2.
  destruct ls as [|[i1 es1] ls].
  - cbn [map hbd hd]. eexists. exists (GL f es0). split; [reflexivity|]. cbn [troot tdepth th gid rmin].
    cbn [flat_map app] in SO. rewrite app_nil_r in SO. cj.
    + reflexivity.
    + split; [exact SO|]. split; [rewrite Forall_forall; intros; split; exact Logic.I|].
      apply Forall_inv in CAP. cbn [snd] in CAP. lia.
    + constructor; cbn [bids nds lids lvs flat_map leaves nodes app map fst hl hb hnx hpv hfresh crash].
      * constructor; [|constructor]. exists l0. auto.
      * constructor.
      * constructor; [tauto|constructor].
      * constructor.
      * intros j [<-|[]]. apply LT. now left.
      * intros j [].
      * intros j [].
      * cbn [seg hbd hd]. cj; auto.
    + rewrite ents_GL. cbn [flat_map snd]. now rewrite app_nil_r.
    + reflexivity.
    + reflexivity.
    + reflexivity.
  - assert (FL : Forall (fun q : nat * list (Z * V) => minL <= length (snd q) <= M) ((f, es0) :: (i1, es1) :: ls)).
    { assert (H1 : 1 < length ((f, es0) :: (i1, es1) :: ls)) by (cbn [length]; lia). specialize (MIN H1).
      rewrite Forall_forall in *. intros q Hq. split; auto. }
    pose proof (Forall_inv FL) as LE0. cbn [snd] in LE0. apply Forall_inv_tail in FL.
    cbn [map hbd hd fst]. set (hc := crash h).
    (* the initial one-child root, then the second leaf *)
    destruct (rec_node_ok hc f) as (b0 & E0 & BR0). rewrite E0. cbn [bind fst snd].
    set (h1 := set_branch (snd (new_branch N hc)) (hfresh hc) b0).
    pose proof (sorted_app es0 (es1 ++ flat_map snd ls)) as SA. apply SA in SO as (SO0 & SO1 & SO01). clear SA.
    cbn [flat_map snd] in *.
    assert (SF : sorted (es0 ++ es1 ++ flat_map snd ls)) by (apply sorted_app; auto).
    pose proof (Forall_inv FL) as LE1. cbn [snd] in LE1. pose proof (Forall_inv_tail FL) as FL'.
    pose proof (Forall_inv IL) as (l1 & Hl1 & LR1). cbn [fst snd] in Hl1, LR1. pose proof (Forall_inv_tail IL) as IL'.
    destruct es1 as [|[x1 v1] es1]; [cbn [length] in LE1; lia|]. pose proof SO1 as SO1'. apply sorted_app in SO1' as (SO11 & _ & _).
    set (G0 := GB (hfresh hc) [] [GL f es0]).
    assert (AL : alt x1 (keys (ents [G0]))).
    { unfold G0. rewrite ents_GB, ents_GL. unfold alt. rewrite Forall_forall. intros y Hy. apply SO01; auto. left. reflexivity. }
    assert (B0 : binv h1 [G0]).
    { apply binv_GB. cj.
      - apply binv_GL.
      - rewrite bids_GL. intros [].
      - unfold h1, hc. cbn [set_branch new_branch snd hfresh crash]. lia.
      - exists b0. unfold h1. cbn [set_branch hb fst snd]. rewrite upd_same'. auto. }
    assert (FRh : bframe h1 h1 []) by (unfold bframe; cj; auto).
    assert (Hb0 : hb h1 (hfresh hc) = Some b0) by (unfold h1; cbn [set_branch hb]; apply upd_same').
    assert (BX : binv h1 ([GL f es0] ++ [GL i1 ((x1, v1) :: es1)])).
    { apply binv_app. cj; [apply binv_GL|apply binv_GL|intros ? []]. }
    destruct (@append_post h1 h1 (hfresh hc) [] [GL f es0] b0 x1 (GL i1 ((x1, v1) :: es1)) [] FRh Hb0 BR0) as (h2 & E2 & F2 & B2); auto.
    { cbn [length]. lia. }
    set (G1 := GB (hfresh hc) ([] ++ [x1]) ([GL f es0] ++ [GL i1 ((x1, v1) :: es1)])) in *.
    assert (W1 : wf 1 1 None None G1).
    { split; [cbn [length app]; lia|]. cbn [app kids]. split; [exact Logic.I|]. split.
      - split; [exact SO0|]. split; [|cbn [mn]; lia]. rewrite Forall_forall. intros y Hy. split; [exact Logic.I|]. cbn [hib].
        unfold G0 in AL. rewrite ents_GB, ents_GL in AL. unfold alt in AL. rewrite Forall_forall in AL. auto.
      - split; [exact Logic.I|]. split; [exact SO11|]. split; [|cbn [mn]; lia]. pose proof SO11 as Q. apply ssorted_cons in Q as [_ Q].
        cbn [keys map fst]. constructor; [split; [cbn [lob]; lia|exact Logic.I]|].
        unfold agt in Q. eapply Forall_impl; [|exact Q]. intros y Hy. split; [cbn in *; lia|exact Logic.I]. }
    set (t2 := Tree h2 (hfresh hc) 1).
    assert (Q : same_leaves h h2).
    { destruct F2 as (Fa & Fb & Fc & Fd & _). unfold same_leaves. rewrite Fa, Fb, Fc.
      assert (EF : hfresh h1 = S (hfresh h)) by reflexivity. cj; try reflexivity. lia. }
    destruct Q as (Q1 & Q2 & Q3 & Q4).
    assert (R1 : rinv t2 G1). { unfold rinvm, t2. cbn [troot tdepth th]. cj; auto. eauto. }
    cbn [map fst seg] in S3. destruct S3 as (S3 & S4 & S5).
    assert (LEN : length ls < hfresh h).
    { pose proof (NoDup_bound HN (Nat.le_0_l _) ND LT) as Q. cbn [length map] in Q. rewrite map_length in Q. lia. }
    destruct (@rec_chain_ok false 1 (le_n 1) ls t2 G1 (Some i1) (hfresh hc) R1) as (t3 & G3 & E3 & R3 & LV3 & SH3 & (T1 & T2 & T3 & T4)).
    + unfold t2; cbn [th]. eapply lok_frame; [|exact IL']. now rewrite Q1.
    + unfold t2; cbn [th]. eapply seg_frame; [|exact S5]. intros j _. now rewrite Q2, Q3.
    + unfold G1. rewrite ents_GB, ents_app, !ents_GL, <- app_assoc. exact SF.
    + exact FL'.
    + exact LEN.
    + exists t3, G3. split.
      * cbn [rec_chain]. unfold rec_insert. cbn [th tdepth troot]. rewrite rec_branch_1, (getb_some Hb0). cbn [bind].
        assert (Hl1' : hl h1 i1 = Some l1) by exact Hl1. unfold getl. rewrite Hl1'. cbn [of_opt bind]. rewrite (MK LR1). cbn [bind].
        rewrite (proj1 BR0). cbn [length]. destruct (Nat.eqb_spec 0 N); [lia|]. cbn [gid] in E2. rewrite E2. cbn [bind th].
        rewrite Q2, S4. exact E3.
      * destruct R3 as (Eg3 & (d3 & Ed3) & W3 & B3 & ND3 & LT3). unfold t2 in T1, T2, T3, T4. cbn [th] in T1, T2, T3, T4.
        assert (LVF : lvs [G3] = (f, es0) :: (i1, (x1, v1) :: es1) :: ls).
        { rewrite LV3. unfold G1. rewrite lvs_GB. reflexivity. }
        assert (LIF : lids [G3] = map fst ((f, es0) :: (i1, (x1, v1) :: es1) :: ls)) by (unfold lids; now rewrite LVF).
        cj.
        -- exact Eg3.
        -- rewrite Ed3 in *. exact W3.
        -- constructor; rewrite ?app_nil_r; cbn [app]; auto.
           ++ rewrite LVF. eapply lok_frame; [|exact IL0]. now rewrite T1, Q1.
           ++ rewrite LIF. exact ND0.
           ++ rewrite LIF. intros j Hj. apply LT0 in Hj. lia.
           ++ intros j [].
           ++ rewrite LIF. eapply seg_frame; [|exact IS0]. intros j _. now rewrite T2, T3, Q2, Q3.
        -- unfold ents. rewrite LVF. reflexivity.
        -- rewrite LIF. reflexivity.
        -- exact LVF.
        -- apply (SH3 eq_refl 2). exists [GL f es0], (GL i1 ((x1, v1) :: es1)), 1. cj; auto; [constructor; [exact Logic.I|constructor]|reflexivity].
Qed.

(** recover() after a restart gives a tree with the same entries. *)
Lemma recover_shape f t g es : gid g = troot t -> wf (rmin (tdepth t)) (tdepth t) None None g ->
  inv N lrep (th t) [] [g] [] -> ents [g] = es -> hd_error (lids [g]) = Some f ->
  exists t' g', recover N O false (th t) f = Ok t' /\
    (gid g' = troot t' /\ wf (rmin (tdepth t')) (tdepth t') None None g' /\ inv N lrep (th t') [] [g'] [] /\
     ents [g'] = es /\ hd_error (lids [g']) = Some f) /\ lvs [g'] = lvs [g] /\ rsh (tdepth t') g' (length (lvs [g])).
Proof.
  intros Eg W I Ee Ef. destruct t as [h r d]. cbn [troot tdepth th] in *.
  pose proof (inv_nd I) as ND. pose proof (inv_lt I) as LT. pose proof (inv_seg I) as IS. rewrite app_nil_r in ND, LT, IS. cbn [app] in ND, LT, IS.
  assert (CAP : Forall (fun q => length (snd q) <= M) (lvs [g])).
  { destruct d; destruct g as [i es1|]; try contradiction W.
    - constructor; [|constructor]. cbn [snd]. apply W.
    - eapply Forall_impl; [|exact (wf_leaf_sizes W (or_intror (Nat.neq_succ_0 d)))]. cbn beta. intros q Hq. lia. }
  assert (MIN : 1 < length (lvs [g]) -> Forall (fun q => minL <= length (snd q)) (lvs [g])).
  { intros H. destruct d; destruct g as [i es1|]; try contradiction W.
    - cbn in H. lia.
    - eapply Forall_impl; [|exact (wf_leaf_sizes W (or_intror (Nat.neq_succ_0 d)))]. cbn beta. intros q Hq. lia. }
  rewrite <- Ee. exact (recover_list (inv_l I) ND LT IS (ents_sorted W) CAP MIN Ef).
Qed.

Lemma recover_ok f t es : tinvf f t es -> exists t', recover N O false (th t) f = Ok t' /\ tinvf f t' es.
Proof.
  intros (g & H1 & H2 & H3 & H4 & H5). destruct (recover_shape H1 H2 H3 H4 H5) as (t' & g' & E & H & _).
  exists t'. split; [exact E|]. exists g'. exact H.
Qed.


End Recover.

(** ** Reading through rebuilt branch nodes *)
Section Read.
Variables (L V : Type) (N M : nat) (O : leafops L V).
Variable lrep : L -> list (Z * V) -> Prop.
Variable minL minL' : nat.
Variable kok : Z -> Prop.
Hypothesis LL : leaf_laws O M minL kok lrep.
Notation gt := (gt V).
Notation wf := (wf N M minL' 0).
Implicit Types (g : gt) (cs : list gt).

Lemma bpos_okb b a bb (cs : list nat) k : brep N b (a ++ bb) cs -> ssorted (a ++ bb) -> ale k a -> agt k bb ->
  lo_bpos O (bk b) (bn b) k = Ok (length a).
Proof. intros (Hn & _ & _ & [R HK] & _) HS Ha Hb. rewrite HK, Hn. now apply (law_bpos LL). Qed.

Lemma find_leaf_b d : forall m (h : heap L) g lo hi k, wf m d lo hi g -> binv N h [g] -> inb lo hi k ->
  exists LA i es LB, find_leaf O h d (gid g) k = Ok i /\ lvs [g] = LA ++ (i, es) :: LB /\
    alt k (keys (flat_map snd LA)) /\ agt k (keys (flat_map snd LB)).
Proof.
  induction d as [|d IH]; intros m h [i es|i ks cs] lo hi k HW HI Hk; try contradiction HW.
  - exists [], i, es, []. cbn [find_leaf gid]. splits; auto; constructor.
  - destruct HW as [HC HK]. apply binv_GB in HI as (HI & _ & _ & (b & Eb & Hb)). cbn [fst snd] in *.
    destruct (route HK Hk) as (a & bb & CA & c & CB & -> & -> & LA & LB & Ha & Hbb & KL & Rc & Bc & KR & Hkc).
    destruct (kids_sorted HK) as [HS _].
    change (CA ++ c :: CB) with (CA ++ [c] ++ CB) in HI.
    apply binv_app in HI as (_ & HI & _). apply binv_app in HI as (HI & _ & _).
    destruct (IH _ _ _ _ _ _ Rc HI Hkc) as (lA & j & es & lB & E & EL & H1 & H2).
    exists (lvs CA ++ lA), j, es, (lB ++ lvs CB). cbn [find_leaf gid]. unfold getb. rewrite Eb. cbn [of_opt bind].
    rewrite (bpos_okb Hb HS Ha Hbb). cbn [bind]. rewrite (kid_at Hb) by auto. cbn [bind].
    destruct (ctx_ents (wf_okc (m := mn minL' 0 d) (d := d)) KL KR Hkc) as [HA HBB]. unfold ents in HA, HBB.
    splits; auto.
    + rewrite lvs_GB, lvs_cons_cut, EL. rewrite <- !app_assoc. reflexivity.
    + rewrite flat_map_app, keys_app. apply Forall_app. auto.
    + rewrite flat_map_app, keys_app. apply Forall_app. auto.
Qed.

Lemma leftmost_b d : forall m (h : heap L) g lo hi, wf m d lo hi g -> binv N h [g] ->
  exists i es LB, leftmost h d (gid g) = Ok i /\ lvs [g] = (i, es) :: LB.
Proof.
  induction d as [|d IH]; intros m h [i es|i ks cs] lo hi HW HI; try contradiction HW.
  - exists i, es, []. auto.
  - destruct HW as [HC HK]. apply binv_GB in HI as (HI & _ & _ & (b & Eb & Hb)). cbn [fst snd] in *.
    pose proof (kids_length HK) as LC. destruct cs as [|c cs]; [discriminate LC|].
    assert (W : exists x y, wf (mn minL' 0 d) d x y c).
    { destruct (kids_mono HK (or_introl eq_refl)) as (x & y & _ & W). eauto. }
    destruct W as (x & y & W). apply (binv_app N h [c] cs) in HI as (HI & _ & _).
    destruct (IH _ _ _ _ _ W HI) as (j & es & LB & E & EL).
    exists j, es, (LB ++ lvs cs). cbn [leftmost gid]. unfold getb. rewrite Eb. cbn [of_opt bind].
    rewrite (kid_at (CA := []) Hb) by auto. cbn [bind]. split; [exact E|]. rewrite lvs_GB.
    change (c :: cs) with ([c] ++ cs). rewrite lvs_app, EL. reflexivity.
Qed.
End Read.

Section Hybrid.
Variables (L V : Type) (N M : nat) (O : leafops L V).
Variable lrep : L -> list (Z * V) -> Prop.
Variable minL : nat.
Variable kok : Z -> Prop.
Hypothesis LL : leaf_laws O M minL kok lrep.
Hypothesis MK : forall l es x (v : V), lrep l ((x, v) :: es) -> lo_minkey O l = Ok x.
Hypothesis HN : 2 <= N.
Hypothesis HL : 1 <= minL.
Notation gt := (gt V).

(** HPBPTree's recover() registers the first leaf twice.  Every lookup still gives the right answer: the
    first copy only serves keys below the smallest one. *)
Lemma recover_hyb_list f (h : heap L) LS : Forall (lok lrep h) LS -> NoDup (map fst LS) -> (forall i, In i (map fst LS) -> i < hfresh h) ->
  seg h None (map fst LS) None -> sorted (flat_map snd LS) -> Forall (fun q => length (snd q) <= M) LS ->
  (1 < length LS -> Forall (fun q => 1 <= length (snd q)) LS) -> hd_error (map fst LS) = Some f ->
  exists t', recover N O true h f = Ok t' /\ (forall k, t_lookup O t' k = Ok (get k (flat_map snd LS))) /\
    leftmost (th t') (tdepth t') (troot t') = Ok f /\ same_leaves h (th t').
Proof.
  intros IL0' ND0 LT0 IS0 SO0' CAP MIN Ef.
  destruct LS as [|[i0 es0] ls] eqn:EL; [discriminate Ef|]. cbn [map fst hd_error] in Ef. injection Ef as ->.
  pose proof IL0' as IL0. pose proof IL0 as IL. pose proof IS0 as IS.
  cbn [app map fst seg] in IS. pose proof IS as (S1 & S2 & S3).
  pose proof (Forall_inv IL) as (l0 & Hl0 & LR0). cbn [fst snd] in Hl0, LR0. apply Forall_inv_tail in IL.
  pose proof ND0 as ND. pose proof LT0 as LT. cbn [app map fst] in ND, LT.
  pose proof SO0' as SO. cbn [flat_map snd] in SO.
  remember (flat_map snd ((f, es0) :: ls)) as es eqn:Ee. symmetry in Ee. cbn [flat_map snd] in Ee.
  unfold recover, getl. cbv zeta. change (hl (crash h) f) with (hl h f). change (hnx (crash h) f) with (hnx h f). rewrite Hl0. cbn [of_opt bind]. rewrite S2.
  destruct ls as [|[i1 es1] ls].
  - cbn [map hbd hd]. eexists. split; [reflexivity|]. cbn [flat_map] in Ee. rewrite app_nil_r in Ee. subst es. split.
    + intros k. unfold t_lookup. cbn [th troot tdepth find_leaf bind]. unfold getl. change (hl (crash h) f) with (hl h f). rewrite Hl0.
      cbn [of_opt bind]. apply (law_lookup LL k LR0).
    + cbn [th]. unfold same_leaves. splits; auto.
  - assert (FL : Forall (fun q : nat * list (Z * V) => 1 <= length (snd q) <= M) ((f, es0) :: (i1, es1) :: ls)).
    { assert (H1 : 1 < length ((f, es0) :: (i1, es1) :: ls)) by (cbn [length]; lia). specialize (MIN H1).
      rewrite Forall_forall in *. intros q Hq. split; auto. }
    pose proof (Forall_inv FL) as LE0. cbn [snd] in LE0.
    destruct es0 as [|[x0 v0] es0]; [cbn [length] in LE0; lia|].
    cbn [map hbd hd fst]. set (hc := crash h).
    destruct (rec_node_ok N hc f) as (b0 & E0 & BR0). rewrite E0. cbn [bind fst snd].
    set (h1 := set_branch (snd (new_branch N hc)) (hfresh hc) b0).
    (* the first copy of the first leaf stands for the keys below [x0] *)
    set (fake := [((x0 - 1)%Z, v0)]).
    set (G0 := GB (hfresh hc) [] [GL f fake]).
    set (ls' := (f, (x0, v0) :: es0) :: (i1, es1) :: ls) in *.
    assert (SF : sorted (fake ++ flat_map snd ls')).
    { apply sorted_app. splits; [repeat constructor|exact SO|]. intros a b Ha Hb. unfold fake in Ha. cbn [keys map fst In] in Ha. destruct Ha as [<-|[]].
      unfold ls' in Hb. cbn [flat_map snd] in Hb. cbn [app keys map fst] in Hb. destruct Hb as [<-|Hb]; [lia|].
      cbn [flat_map snd app] in SO. unfold sorted in SO. cbn [keys map fst] in SO. apply ssorted_cons in SO as [_ SO]. unfold agt in SO. rewrite Forall_forall in SO.
      specialize (SO b Hb). lia. }
    assert (B0 : binv N h1 [G0]).
    { apply binv_GB. cj.
      - apply binv_GL.
      - intros [].
      - unfold h1, hc. cbn [set_branch new_branch snd hfresh crash]. lia.
      - exists b0. unfold h1. cbn [set_branch hb fst snd]. rewrite upd_same'. auto. }
    assert (FRh : bframe h1 h1 []) by (unfold bframe; cj; auto).
    assert (Hb0 : hb h1 (hfresh hc) = Some b0) by (unfold h1; cbn [set_branch hb]; apply upd_same').
    set (ls2 := (i1, es1) :: ls) in *.
    assert (BX : binv N h1 ([GL f fake] ++ [GL f ((x0, v0) :: es0)])).
    { apply binv_app. cj; [apply binv_GL|apply binv_GL|intros ? []]. }
    destruct (@append_post L V N h1 h1 (hfresh hc) [] [GL f fake] b0 x0 (GL f ((x0, v0) :: es0)) [] FRh Hb0 BR0) as (h2 & E2 & F2 & B2); auto.
    { cbn [length]. lia. }
    set (G1 := GB (hfresh hc) ([] ++ [x0]) ([GL f fake] ++ [GL f ((x0, v0) :: es0)])) in *.
    unfold ls' in SF. cbn [flat_map snd] in SF, SO. apply sorted_app in SO as (SO0 & _ & _).
    assert (W1 : wf N M 1 0 1 1 None None G1).
    { split; [cbn [length app]; lia|]. cbn [app kids]. split; [exact Logic.I|]. split.
      - split; [repeat constructor|]. split; [|cbn [mn length fake]; lia]. constructor; [|constructor]. split; [exact Logic.I|]. cbn [hib fst]. lia.
      - split; [exact Logic.I|]. split; [exact SO0|]. split; [|cbn [mn length] in *; lia]. pose proof SO0 as Q. apply ssorted_cons in Q as [_ Q].
        cbn [keys map fst]. constructor; [split; [cbn [lob]; lia|exact Logic.I]|].
        unfold agt in Q. eapply Forall_impl; [|exact Q]. intros y Hy. split; [cbn in *; lia|exact Logic.I]. }
    set (t2 := Tree h2 (hfresh hc) 1).
    assert (Q : same_leaves h h2).
    { destruct F2 as (Fa & Fb & Fc & Fd & _). unfold same_leaves. rewrite Fa, Fb, Fc.
      assert (EF : hfresh h1 = S (hfresh h)) by reflexivity. cj; try reflexivity. lia. }
    destruct Q as (Q1 & Q2 & Q3 & Q4).
    assert (R1 : rinvm N M 1 1 t2 G1). { unfold rinvm, t2. cbn [troot tdepth th]. cj; auto. eauto. }
    assert (LEN : length ls2 < hfresh hc).
    { pose proof (NoDup_bound HN (Nat.le_0_l _) ND LT) as Q. cbn [length] in Q. rewrite map_length in Q.
      change (hfresh hc) with (hfresh h). lia. }
    assert (IL2 : Forall (lok lrep h) ls2) by exact IL.
    assert (FL2 : Forall (fun q : nat * list (Z * V) => 1 <= length (snd q) <= M) ls2).
    { apply Forall_inv_tail in FL. eapply Forall_impl; [|exact FL]. intros q Hq. cbn in *. lia. }
    destruct (fun HL' => @rec_chain_ok L V N M O lrep 1 MK HN HL' true 1 (le_n 1) ls2 t2 G1 (Some f) (hfresh hc) R1) as (t3 & G3 & E3 & R3 & LV3 & _ & (T1 & T2 & T3 & T4)).
    + lia.
    + unfold t2; cbn [th]. eapply lok_frame; [|exact IL2]. now rewrite Q1.
    + unfold t2; cbn [th]. eapply seg_frame; [|exact S3]. intros j _. now rewrite Q2, Q3.
    + unfold G1. rewrite ents_GB, ents_app, !ents_GL, <- app_assoc. exact SF.
    + exact FL2.
    + exact LEN.
    + exists t3.
      assert (LV3' : lvs [G3] = (f, fake) :: ls').
      { rewrite LV3. unfold G1. rewrite lvs_GB. reflexivity. }
      unfold t2 in T1, T2, T3, T4. cbn [th] in T1, T2, T3, T4.
      destruct R3 as (Eg3 & (d3 & Ed3) & W3 & B3). split; [|split; [|split]].
      * cbn [rec_chain]. unfold rec_insert. cbn [th tdepth troot]. rewrite rec_branch_1, (getb_some Hb0). cbn [bind].
        assert (Hl1' : hl h1 f = Some l0) by exact Hl0. unfold getl. rewrite Hl1'. cbn [of_opt bind]. rewrite (MK LR0). cbn [bind].
        rewrite (proj1 BR0). cbn [length]. destruct (Nat.eqb_spec 0 N); [lia|]. cbn [gid] in E2. rewrite E2. cbn [bind th].
        rewrite Q2, S2. exact E3.
      * intros k. destruct (@find_leaf_b L V N M O lrep minL 1 kok LL (tdepth t3) 1 (th t3) G3 None None k W3 B3) as (LA & i & le & LB & E & EL3 & H1 & H2).
        { split; exact Logic.I. }
        unfold t_lookup. rewrite <- Eg3, E. cbn [bind]. rewrite LV3' in EL3. unfold getl. rewrite T1, Q1.
        rewrite <- Ee. change ((x0, v0) :: es0) with (snd (f, (x0, v0) :: es0)). change (snd _ ++ flat_map snd ls2) with (flat_map snd ls').
        destruct LA as [|q LA].
        -- cbn [app] in EL3. injection EL3 as <- <- <-. rewrite Hl0. cbn [of_opt bind]. rewrite (law_lookup LL k LR0). f_equal.
           unfold ls' in *. cbn [flat_map snd] in *. rewrite keys_app in H2. unfold agt in H2. apply Forall_app in H2 as [H2 H3].
           rewrite get_app_gt; [reflexivity|exact H3].
        -- cbn [app] in EL3. injection EL3 as <- EL3.
           assert (Hin : In (i, le) ls') by (rewrite EL3; apply in_or_app; simpl; auto).
           rewrite Forall_forall in IL0. destruct (IL0 _ Hin) as (l & El & Hl). cbn [fst snd] in El, Hl. rewrite El. cbn [of_opt bind].
           rewrite (law_lookup LL k Hl). f_equal. rewrite EL3, flat_map_app. cbn [flat_map snd] in H1 |- *.
           rewrite keys_app in H1. apply Forall_app in H1 as [_ H1]. rewrite get_app_lt by assumption. now rewrite get_app_gt.
      * destruct (@leftmost_b L V N M 1 (tdepth t3) 1 (th t3) G3 None None W3 B3) as (i & le & LB & E & EL3).
        rewrite LV3' in EL3. injection EL3 as <- <- <-. rewrite <- Eg3. exact E.
      * unfold same_leaves. cbn [th]. rewrite T1, T2, T3. cj; auto. lia.
Qed.

Lemma recover_hyb_ok f t es : tinvf N M lrep minL 0 f t es ->
  exists t', recover N O true (th t) f = Ok t' /\ (forall k, t_lookup O t' k = Ok (get k es)) /\
    leftmost (th t') (tdepth t') (troot t') = Ok f /\ same_leaves (th t) (th t').
Proof.
  intros (g & Eg & W & I & Ee & Ef). rewrite <- Ee.
  pose proof (inv_nd I) as ND. pose proof (inv_lt I) as LT. pose proof (inv_seg I) as IS. rewrite app_nil_r in ND, LT, IS. cbn [app] in ND, LT, IS.
  apply (recover_hyb_list (inv_l I) ND LT IS (ents_sorted W)).
  - destruct (tdepth t) as [|d]; destruct g as [i es1|]; try contradiction W.
    + constructor; [|constructor]. cbn [snd]. apply W.
    + eapply Forall_impl; [|exact (wf_leaf_sizes W (or_intror (Nat.neq_succ_0 d)))]. cbn beta. intros q Hq. lia.
  - intros H. destruct (tdepth t) as [|d]; destruct g as [i es1|]; try contradiction W.
    + cbn in H. lia.
    + eapply Forall_impl; [|exact (wf_leaf_sizes W (or_intror (Nat.neq_succ_0 d)))]. cbn beta. intros q Hq. lia.
  - exact Ef.
Qed.

Lemma scan_same (SL : scan_laws O lrep) f t t' es : tinvf N M lrep minL 0 f t es ->
  leftmost (th t') (tdepth t') (troot t') = Ok f -> same_leaves (th t) (th t') -> t_scan O t' = Ok es.
Proof.
  intros (g & Eg & W & I & Ee & Ef) LM (S1 & S2 & S3 & S4). unfold t_scan. rewrite LM. cbn [bind].
  unfold lids in Ef. destruct (lvs [g]) as [|[i0 es0] ls] eqn:EL; [discriminate Ef|]. cbn [map fst hd_error] in Ef. injection Ef as ->.
  pose proof (inv_seg I) as HS. cbn [app] in HS. rewrite app_nil_r in HS. unfold lids in HS.
  assert (E2 : scan_chain O (S (hfresh (th t'))) (th t') (hbd (map fst (lvs [g])) None) = Ok (flat_map snd (lvs [g]))).
  { eapply scan_chain_sorted; [exact HN|apply Nat.le_0_l|exact SL| | |].
    - eapply lok_frame; [|exact (inv_l I)]. now rewrite S1.
    - eapply seg_frame; [|exact HS]. intros j _. now rewrite S2, S3.
    - pose proof (chain_fuel HN (Nat.le_0_l _) I). lia. }
  rewrite EL in E2 at 1. cbn [map hbd hd fst] in E2. rewrite E2. unfold ents in Ee. now rewrite Ee.
Qed.
End Hybrid.

(** ** Histories of inserts and restarts *)
Definition rops {V} (rs : list (rop V)) : list (mop V) :=
  flat_map (fun r => match r with RIns k v => [OpInsert k v] | RRestart => [] end) rs.

Section Hist.
Variables (L V : Type) (N M : nat) (O : leafops L V).
Variable lrep : L -> list (Z * V) -> Prop.
Variable minL : nat.
Variable kok : Z -> Prop.
Hypothesis LL : leaf_laws O M minL kok lrep.
Hypothesis MK : forall l es x (v : V), lrep l ((x, v) :: es) -> lo_minkey O l = Ok x.
Hypothesis HN : 2 <= N.
Hypothesis HL : 1 <= minL.
Notation tinvf := (tinvf N M lrep minL 0).

Definition rok (r : rop V) := match r with RIns k _ => kok k | RRestart => True end.

Lemma r_hist rs : forall t es m, tinvf 0 t es -> (forall k, get k es = m k) -> Forall rok rs ->
  exists t' es', r_run N O false t rs = Ok t' /\ tinvf 0 t' es' /\ forall k, get k es' = fold_left (@m_step V) (rops rs) m k.
Proof.
  induction rs as [|r rs IH]; intros t es m I E F; cbn [r_run rops flat_map].
  - exists t, es. auto.
  - apply Forall_cons_iff in F as [Fr F]. destruct r as [k v|]; cbn [r_step].
    + destruct (@t_insert_first L V N M O lrep minL 0 kok LL HN (Nat.le_0_l _) 0 t es k v Fr I) as (t1 & E1 & I1). rewrite E1. cbn [bind].
      cbn [app fold_left]. apply (IH t1 _ (m_step m (OpInsert k v)) I1); auto. intros x.
      rewrite get_ins by (eapply tinv_sorted, tinvf_tinv; eauto).
      cbn [m_step]. unfold m_put. destruct (x =? k)%Z; auto.
    + destruct (recover_ok MK HN HL I) as (t1 & E1 & I1). rewrite E1. cbn [bind app]. apply (IH t1 es m I1); auto.
Qed.

Lemma r_hist_new rs : Forall rok rs ->
  exists t es, r_run N O false (t_new O) rs = Ok t /\ tinvf 0 t es /\ forall k, get k es = m_run (rops rs) k.
Proof. intros F. apply (@r_hist rs (t_new O) [] m_empty); auto. eapply tinvf_new; eauto; lia. Qed.

Lemma r_lookup rs : Forall rok rs -> exists t, r_run N O false (t_new O) rs = Ok t /\ forall k, t_lookup O t k = Ok (m_run (rops rs) k).
Proof.
  intros F. destruct (r_hist_new F) as (t & es & E & I & G). exists t. split; [exact E|]. intros k. rewrite <- G.
  eapply t_lookup_ok; [exact LL|]. eapply tinvf_tinv; eauto.
Qed.

Lemma r_scan rs : Forall rok rs -> exists t out, r_run N O false (t_new O) rs = Ok t /\ t_scan O t = Ok out /\
  enumerates (m_run (rops rs)) out /\ in_runs M out.
Proof.
  intros F. destruct (r_hist_new F) as (t & es & E & I & G). apply tinvf_tinv in I.
  destruct (t_scan_perm LL HN (Nat.le_0_l _) I) as (out & Eo & P & R). exists t, out. splits; auto.
  eapply enumerates_ext; [exact G|]. apply perm_enumerates; auto. eapply tinv_sorted; eauto.
Qed.

Lemma r_range (RL : range_law O lrep) lo hi rs : Forall rok rs -> exists t out, r_run N O false (t_new O) rs = Ok t /\
  t_range O t lo hi = Ok out /\ enumerates_range (m_run (rops rs)) lo hi out.
Proof.
  intros F. destruct (r_hist_new F) as (t & es & E & I & G). apply tinvf_tinv in I.
  destruct (t_range_perm LL HN (Nat.le_0_l _) RL lo hi I) as (out & Eo & P). exists t, out. splits; auto.
  eapply enumerates_range_ext; [exact G|]. apply perm_enumerates_range; auto. eapply tinv_sorted; eauto.
Qed.

Lemma hyb_lookup (SL : scan_laws O lrep) os : Forall (ins_ok kok) os ->
  exists t t' out, t_run N M O (t_new O) (map bop_of os) = Ok t /\ recover N O true (th t) 0 = Ok t' /\
    (forall k, t_lookup O t' k = Ok (m_run os k)) /\ t_scan O t' = Ok out /\ lists (m_run os) out.
Proof.
  intros F.
  destruct (@hist_insert_first L V N M O lrep minL 0 kok LL HN (Nat.le_0_l _) 0 os (t_new O) [] m_empty) as (t & es & E & I & G); auto.
  { eapply tinvf_new; eauto; lia. }
  destruct (recover_hyb_ok LL MK HN HL I) as (t' & E' & LK & LM & SL'). exists t, t', es. splits; auto.
  - intros k. rewrite LK, G. reflexivity.
  - eapply scan_same; eauto.
  - eapply lists_ext; [exact G|]. apply sorted_lists. eapply tinv_sorted. eapply tinvf_tinv; eauto.
Qed.
End Hist.

Lemma div2_pos M : 2 <= M -> 1 <= M / 2.
Proof. lia. Qed.

Lemma rok_true V (rs : list (rop V)) : Forall (rok (fun _ => True)) rs.
Proof. rewrite Forall_forall. intros [k v|] _; exact I. Qed.
