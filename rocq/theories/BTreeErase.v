(** Deletion in [BTreeModel], on heaps holding a well-formed tree. *)
From Verif Require Import Base ArrLemmas MapSpec SortedList BTreeModel BTreeLaws BTreeBranch BTreeGhost BTreeInsert EraseSpec PathSpec.
Open Scope nat_scope.

Lemma del_none {V} k (es : list (Z * V)) : get k es = None -> del k es = es.
Proof. induction es as [|[x w] es IH]; cbn; [auto|]. destruct (x =? k)%Z; [discriminate|]. intros H. now rewrite IH. Qed.
Lemma length_del_le {V} k (es : list (Z * V)) : sorted es -> length es - 1 <= length (del k es) <= length es.
Proof.
  intros H. destruct (get k es) eqn:E.
  - pose proof (@length_del V k es H ltac:(congruence)). lia.
  - rewrite (del_none E). lia.
Qed.

Section Pairs.
Variables (L V : Type) (N M : nat) (O : leafops L V).
Variable lrep : L -> list (Z * V) -> Prop.
Variables minL minB : nat.
Notation hp := (heap L).
Notation gt := (gt V).
Notation wf := (wf N M minL minB).
Notation inv := (inv N lrep).
Notation upd_ok := (upd_ok N lrep).

Lemma rev_case {T} (l : list T) : l = [] \/ exists l' x, l = l' ++ [x].
Proof. destruct l as [|x l] using rev_ind; [auto|right; eauto]. Qed.

Lemma kl_snoc (R : option Z -> option Z -> gt -> Prop) a x (CA : list gt) c : forall lo,
  length CA = length a ->
  kl R lo (a ++ [x]) (CA ++ [c]) <-> kl R lo a CA /\ bl (lb lo a) (Some x) /\ R (lb lo a) (Some x) c.
Proof.
  revert CA; induction a as [|y a IH]; intros [|d CA] lo HL; try discriminate HL.
  - simpl. tauto.
  - simpl in HL. injection HL as HL. cbn [app kl]. rewrite IH by exact HL. rewrite lb_cons. tauto.
Qed.

(** ** Two neighbouring leaves *)
Lemma pair_ids i1 e1 i2 e2 : lids [GL i1 e1; GL i2 e2 : gt] = [i1; i2].
Proof. reflexivity. Qed.

Lemma inv_pair h A i1 e1 i2 e2 B : inv h A [GL i1 e1; GL i2 e2] B ->
  exists l1 l2, hl h i1 = Some l1 /\ lrep l1 e1 /\ hl h i2 = Some l2 /\ lrep l2 e2 /\ i1 <> i2 /\
    ~ In i1 A /\ ~ In i2 A /\ ~ In i1 B /\ ~ In i2 B /\ NoDup A /\ NoDup B /\ (forall x, In x A -> In x B -> False) /\
    seg h None A (Some i1) /\ hpv h i1 = lb None A /\ hnx h i1 = Some i2 /\ hpv h i2 = Some i1 /\ hnx h i2 = hbd B None /\
    seg h (Some i2) B None.
Proof.
  intros I. pose proof I as [I1 I2 I3 I4 I5 I6 I7 I8]. unfold lvs in I1. cbn in I1.
  inversion I1 as [|? ? (l1 & El1 & Hl1) I1']; subst. inversion I1' as [|? ? (l2 & El2 & Hl2) _]; subst.
  rewrite pair_ids in *. exists l1, l2. cbn [fst snd] in *.
  apply NoDup_app_inv in I3 as (NA & NB & NAB). cbn [app] in NB, NAB. inversion NB as [|? ? NB1 NB2]; subst.
  inversion NB2 as [|? ? NB3 NB4]; subst. simpl in NB1.
  rewrite seg_app in I8. destruct I8 as [SA SB]. cbn [app seg hbd hd map] in SA, SB.
  destruct SB as (S1 & S2 & S3 & S4 & S5).
  splits; auto.
  - intros Hc. eapply NAB; eauto. simpl; auto.
  - intros Hc. eapply NAB; eauto. simpl; auto.
  - intros x Hx Hy. eapply NAB; eauto. simpl; auto.
Qed.

Lemma pair_upd h A i1 e1 i2 e2 B h' l1' l2' e1' e2' : inv h A [GL i1 e1; GL i2 e2] B ->
  hl h' i1 = Some l1' -> hl h' i2 = Some l2' -> (forall j, j <> i1 -> j <> i2 -> hl h' j = hl h j) ->
  hb h' = hb h -> hnx h' = hnx h -> hpv h' = hpv h -> hfresh h' = hfresh h ->
  lrep l1' e1' -> lrep l2' e2' ->
  upd_ok h A [GL i1 e1; GL i2 e2] B h' [GL i1 e1'; GL i2 e2'].
Proof.
  intros I E1 E2 Eo Eb En Ep Ef R1 R2.
  destruct (inv_pair I) as (l1 & l2 & _ & _ & _ & _ & Hne & A1 & A2 & B1 & B2 & _).
  pose proof I as [I1 I2 I3 I4 I5 I6 I7 I8].
  constructor.
  - constructor; auto.
    + constructor; [exists l1'; auto|]. constructor; [exists l2'; auto|constructor].
    + constructor.
    + rewrite Ef. exact I5.
    + simpl. tauto.
    + intros j Hj. destruct (I7 j Hj) as [l El]. exists l. rewrite in_app_iff in Hj.
      rewrite Eo; auto; intros ->; tauto.
    + rewrite pair_ids in *. eapply seg_frame; [|exact I8]. intros j _. now rewrite En, Ep.
  - constructor.
    + lia.
    + intros j Hj Hn. rewrite pair_ids in Hn. simpl in Hn. apply Eo; intros ->; tauto.
    + intros j _ _. now rewrite Eb.
  - rewrite !pair_ids. auto.
  - simpl. tauto.
  - now rewrite !pair_ids.
Qed.

(** Merging a leaf into its left neighbour, whether or not the emptied leaf is then freed. *)
Lemma merge_upd_gen h A i1 e1 i2 e2 B :
  (forall l1 l2 a b, lrep l1 a -> lrep l2 b -> sorted (a ++ b) -> length a + length b <= M ->
     exists l, lo_merge O l1 l2 = Ok l /\ lrep l (a ++ b)) ->
  inv h A [GL i1 e1; GL i2 e2] B -> sorted (e1 ++ e2) -> length e1 + length e2 <= M ->
  exists h1, merge_leaf O h i1 i2 = Ok h1 /\ hb h1 = hb h /\ hnx h1 i1 = hbd B None /\ (exists l2, hl h1 i2 = Some l2) /\
    forall hB : hp, (forall j, j <> i2 -> hl hB j = hl h1 j) -> hb hB = hb h -> hfresh hB = hfresh h1 ->
      (forall j, hnx hB j = hnx h1 j) -> (forall j, hpv hB j = hpv h1 j) ->
      upd_ok h A [GL i1 e1; GL i2 e2] B hB [GL i1 (e1 ++ e2)].
Proof.
  intros LM I HS HL.
  destruct (inv_pair I) as (l1 & l2 & El1 & Hl1 & El2 & Hl2 & Hne & A1 & A2 & B1 & B2 & NA & NB & NAB & SA & P1 & N1 & P2 & N2 & SB).
  pose proof I as [I1 I2 I3 I4 I5 I6 I7 I8].
  destruct (LM _ _ _ _ Hl1 Hl2 HS HL) as (l & EM & Hl).
  assert (Hfin : forall hB : hp,
     hl hB i1 = Some l -> (forall j, j <> i1 -> j <> i2 -> hl hB j = hl h j) -> hb hB = hb h -> hfresh hB = hfresh h ->
     (forall j, hnx hB j = upd (hnx h) i1 (hbd B None) j) ->
     (forall j, hbd B None <> Some j -> hpv hB j = hpv h j) ->
     (forall j, hbd B None = Some j -> hpv hB j = Some i1) ->
     upd_ok h A [GL i1 e1; GL i2 e2] B hB [GL i1 (e1 ++ e2)]).
  { intros hB El' El'' Eb' Ef' En' Ep1 Ep2. constructor.
    - constructor.
      + constructor; [|constructor]. exists l. cbn [fst snd]. auto.
      + constructor.
      + change (lids [GL i1 (e1 ++ e2)]) with [i1]. apply NoDup_app_mk; auto.
        * constructor; auto.
        * simpl. intros x Hx [<-|Hx']; eauto.
      + constructor.
      + change (lids [GL i1 (e1 ++ e2)]) with [i1]. rewrite Ef'. intros j Hj. apply I5. rewrite pair_ids.
        rewrite !in_app_iff in *. simpl in *. tauto.
      + simpl. tauto.
      + intros j Hj. destruct (I7 j Hj) as [lj Ej]. exists lj. rewrite in_app_iff in Hj.
        rewrite El''; auto; intros ->; tauto.
      + change (lids [GL i1 (e1 ++ e2)]) with [i1]. rewrite seg_app. cbn [seg hbd hd map app].
        splits.
        * eapply seg_frame; [|exact SA]. intros j Hj. rewrite En'. rewrite upd_other by (intros ->; tauto). split; auto.
          apply Ep1. destruct B as [|z B]; simpl; [discriminate|]. intros [= ->]. eapply NAB; [exact Hj|simpl; auto].
        * rewrite Ep1; auto. destruct B as [|z B]; simpl; [discriminate|]. intros [= ->]. simpl in B1. tauto.
        * rewrite En'. now rewrite upd_same'.
        * destruct B as [|z B]; [exact Logic.I|]. cbn [seg] in SB |- *. destruct SB as (SB1 & SB2 & SB3).
          inversion NB; subst. simpl in B1. splits.
          -- now apply Ep2.
          -- rewrite En'. rewrite upd_other by (intros ->; tauto). exact SB2.
          -- eapply seg_frame; [|exact SB3]. intros j Hj. rewrite En'. rewrite upd_other by (intros ->; tauto). split; auto.
             apply Ep1. simpl. intros [= ->]. tauto.
    - constructor.
      + lia.
      + intros j Hj Hn. rewrite pair_ids in Hn. simpl in Hn. apply El''; intros ->; tauto.
      + intros j _ _. now rewrite Eb'.
    - rewrite pair_ids. change (lids [GL i1 (e1 ++ e2)]) with [i1]. simpl. tauto.
    - simpl. tauto.
    - reflexivity. }
  unfold merge_leaf, getl. rewrite El1, El2. cbn [of_opt bind]. rewrite EM. cbn [bind]. rewrite N2.
  destruct B as [|n B].
  - cbn [hbd hd map]. eexists. split; [reflexivity|]. cbn [set_nx set_leaf hb hl hnx hpv hfresh].
    split; [reflexivity|]. split; [now rewrite upd_same'|]. split; [exists l2; now rewrite upd_other by auto|].
    intros hB El' Eb' Ef' En' Ep'. apply Hfin; auto.
    + rewrite El' by auto. now rewrite upd_same'.
    + intros j J1 J2. rewrite El' by auto. now rewrite upd_other by auto.
    + discriminate.
  - cbn [hbd hd map]. unfold set_pv_chk, getl. cbn [hl set_nx set_leaf].
    destruct (I7 n) as [ln Eln]; [rewrite in_app_iff; simpl; auto|]. simpl in B1.
    rewrite upd_other by (intros ->; tauto). rewrite Eln. cbn [of_opt bind].
    eexists. split; [reflexivity|]. cbn [set_pv set_nx set_leaf hb hl hnx hpv hfresh].
    split; [reflexivity|]. split; [now rewrite upd_same'|]. split; [exists l2; now rewrite upd_other by auto|].
    intros hB El' Eb' Ef' En' Ep'. apply Hfin; auto.
    + rewrite El' by auto. now rewrite upd_same'.
    + intros j J1 J2. rewrite El' by auto. now rewrite upd_other by auto.
    + intros j Hj. rewrite Ep'. apply upd_other. cbn [hbd hd map] in Hj. congruence.
    + cbn [hbd hd map]. intros j [= <-]. rewrite Ep'. now rewrite upd_same'.
Qed.

Lemma wf0_leaf m lo hi (g : gt) : wf m 0 lo hi g -> exists j es, g = GL j es /\ sorted es /\ Forall (inb lo hi) (keys es) /\ m <= length es <= M.
Proof. destruct g as [j es|]; simpl; [|tauto]. eauto. Qed.

Lemma inb_sub lo hi es1 es2 : Forall (inb lo hi) (keys (es1 ++ es2 : list (Z * V))) ->
  Forall (inb lo hi) (keys es1) /\ Forall (inb lo hi) (keys es2).
Proof. rewrite keys_app. apply Forall_app. Qed.

Lemma bal_kids lo x hi i1 e1 i2 e2 y (w : V) e1' e2' :
  Forall (inb lo (Some x)) (keys e1) -> Forall (inb (Some x) hi) (keys e2) -> bl lo (Some x) -> bl (Some x) hi ->
  sorted (e1 ++ e2) -> e1 ++ e2 = e1' ++ (y, w) :: e2' -> e1' <> [] ->
  minL <= length e1' <= M -> minL <= S (length e2') <= M ->
  kids (wf minL 0) lo [y] [GL i1 e1'; GL i2 ((y, w) :: e2')] hi.
Proof.
  clear O lrep L. intros F1 F2 B1 B2 HS E NE C1 C2.
  assert (FA : Forall (inb lo hi) (keys (e1 ++ e2))).
  { rewrite keys_app, Forall_app. split.
    - rewrite Forall_forall in *. intros z Hz. apply F1 in Hz. eapply inb_weak; eauto. intros q. now apply bl_hib.
    - rewrite Forall_forall in *. intros z Hz. apply F2 in Hz. eapply inb_weak; eauto. intros q. now apply bl_lob. }
  rewrite E in HS, FA. rewrite keys_app, Forall_app in FA. destruct FA as [FA1 FA2].
  apply sorted_app in HS as (S1 & S2 & S12).
  assert (K1 : forall z, In z (keys e1') -> (z < y)%Z) by (intros z Hz; apply S12; simpl; auto).
  assert (K2 : forall z, In z (keys ((y, w) :: e2')) -> (y <= z)%Z).
  { unfold sorted in S2. simpl in S2. apply ssorted_cons in S2 as [_ S2]. rewrite agt_in in S2.
    simpl. intros z [<-|Hz]; [lia|]. specialize (S2 z Hz). lia. }
  rewrite Forall_forall in *. cbn [kids BTreeGhost.wf]. splits; auto; try (cbn [length]; lia).
  - destruct e1' as [|[z u] e1']; [congruence|]. specialize (K1 z ltac:(simpl; auto)).
    destruct (FA1 z ltac:(simpl; auto)) as [Hz _]. destruct lo; simpl in *; auto; lia.
  - rewrite Forall_forall. intros z Hz. split; [apply FA1; auto|simpl; auto].
  - destruct (FA2 y ltac:(simpl; auto)) as [_ Hz]. destruct hi; simpl in *; auto.
  - rewrite Forall_forall. intros z Hz. split; [simpl; auto|apply FA2; auto].
Qed.

Lemma sorted_pair e1 e2 lo x hi : sorted e1 -> sorted e2 ->
  Forall (inb lo (Some x)) (keys (e1 : list (Z * V))) -> Forall (inb (Some x) hi) (keys (e2 : list (Z * V))) -> sorted (e1 ++ e2).
Proof.
  clear O lrep L. intros S1 S2 F1 F2. apply sorted_app. splits; auto. rewrite Forall_forall in *. intros y z Hy Hz.
  apply F1 in Hy as [_ Hy]. apply F2 in Hz as [Hz _]. simpl in *. lia.
Qed.

End Pairs.

(** ** The conditions of PathSpec *)
Lemma bind_inv {A B} (m : res A) (f : A -> res B) b : (do x <- m; f x) = Ok b -> exists x, m = Ok x /\ f x = Ok b.
Proof. destruct m; cbn [bind]; [eauto|discriminate|discriminate]. Qed.

Section PathFacts.
Variables (L V : Type) (N M : nat) (O : leafops L V).

Lemma path_ok_2 (t : tree L) d id k : path_ok N M O t (S (S d)) id k =
  (do b <- getb (th t) id; do pos <- lo_bpos O (bk b) (bn b) k; do c <- aget (bc b) pos;
   do g <- path_ok N M O t (S d) c k;
   if g then
     do r <- erase_branch N M O t (S d) c k;
     do cb <- getb (th (fst r)) c;
     if bn cb <? (N + 1) / 2 then room N (th (fst r)) id pos c (S (S d) =? tdepth t) else Ok true
   else Ok false).
Proof. reflexivity. Qed.

Lemma lend_leaf_keeps (t t' : tree L) id pos c : lend_leaf M O (th t) id pos c = Ok true -> underflow_leaf M O t id pos c = Ok t' ->
  tdepth t' = tdepth t.
Proof.
  unfold lend_leaf, underflow_leaf. cbv zeta. intros H E.
  apply bind_inv in H as (b & Eb & H). rewrite Eb in E. cbn [bind] in E. apply bind_inv in E as (l0 & _ & E).
  apply bind_inv in H as (pn & Ep & H). rewrite Ep in E. cbn [bind] in E.
  apply bind_inv in H as (nn & En & H). injection H as H.
  destruct ((0 <? pos) && ((M + 1) / 2 <? pn)) eqn:C1.
  - repeat (apply bind_inv in E as (? & _ & E)). injection E as <-. reflexivity.
  - rewrite En in E. cbn [bind] in E.
    assert (C2 : (pos <? bn b) && ((M + 1) / 2 <? nn) = true).
    { apply orb_prop in H as [H|H].
      - rewrite H, andb_true_r in C1. rewrite C1 in Ep. injection Ep as <-. apply Nat.ltb_lt in H. lia.
      - rewrite H, andb_true_r. destruct (pos <? bn b); auto. injection En as <-. apply Nat.ltb_lt in H. lia. }
    rewrite C2 in E. repeat (apply bind_inv in E as (? & _ & E)). injection E as <-. reflexivity.
Qed.

Lemma balance_branch_keeps (h h' : heap L) dn rc id pos b : balance_branch h dn rc id pos = Ok h' -> hb h id = Some b ->
  exists b', hb h' id = Some b' /\ bn b' = bn b.
Proof.
  unfold balance_branch. cbv zeta. intros E Eb. apply bind_inv in E as (db & _ & E). apply bind_inv in E as (rb & _ & E). apply bind_inv in E as (pb & Ep & E).
  unfold getb in Ep. rewrite Eb in Ep. injection Ep as <-.
  destruct (_ <? _); [discriminate|]. destruct (_ =? 0); [injection E as <-; eauto|].
  apply bind_inv in E as (d0 & _ & E). apply bind_inv in E as (r0 & _ & E).
  destruct (_ <? _)%Z; repeat (apply bind_inv in E as (? & _ & E)); injection E as <-;
    cbn [set_branch hb]; rewrite upd_same; eexists; (split; [reflexivity|]); reflexivity.
Qed.

Lemma room_keeps (h h' : heap L) id pos c c' r : room N h id pos c r = Ok true -> underflow_branch N h id pos c = Ok (h', c') ->
  (exists b b', hb h id = Some b /\ hb h' id = Some b' /\ bn b' = bn b) \/ (exists b, hb h id = Some b /\ 1 < bn b) \/ r = true.
Proof.
  unfold room, underflow_branch. cbv zeta. intros H E.
  apply bind_inv in H as (b & Eb & H). rewrite Eb in E. cbn [bind] in E. apply bind_inv in H as (cb & _ & H).
  assert (Eb' : hb h id = Some b) by (unfold getb in Eb; destruct (hb h id); [injection Eb as ->; reflexivity|discriminate]).
  apply bind_inv in H as (pn & Ep & H). rewrite Ep in E. cbn [bind] in E.
  apply bind_inv in H as (nn & En & H). injection H as H.
  destruct ((0 <? pos) && ((N + 1) / 2 <? pn)) eqn:C1.
  - apply bind_inv in E as (p & _ & E). apply bind_inv in E as (h1 & E1 & E). injection E as <- <-.
    destruct (balance_branch_keeps E1 Eb') as (b' & E2 & E3). left. exists b, b'. auto.
  - rewrite En in E. cbn [bind] in E. apply orb_prop in H as [H|H].
    + assert (C2 : (pos <? bn b) && ((N + 1) / 2 <? nn) = true).
      { apply orb_prop in H as [H|H].
        - rewrite H, andb_true_r in C1. rewrite C1 in Ep. injection Ep as <-. apply Nat.ltb_lt in H. lia.
        - rewrite H, andb_true_r. destruct (pos <? bn b); auto. injection En as <-. apply Nat.ltb_lt in H. lia. }
      rewrite C2 in E. apply bind_inv in E as (p & _ & E). apply bind_inv in E as (h1 & E1 & E). injection E as <- <-.
      destruct (balance_branch_keeps E1 Eb') as (b' & E2 & E3). left. exists b, b'. auto.
    + apply andb_prop in H as [H _]. apply orb_prop in H as [H|H]; auto. right. left. exists b. split; auto. now apply Nat.ltb_lt.
Qed.
End PathFacts.

Section Erase.
Variables (L V : Type) (N M : nat) (O : leafops L V).
Variable lrep : L -> list (Z * V) -> Prop.
Variable lhint : L -> list (Z * V) -> Z -> Prop.
Variable side : bool -> L -> L -> Prop.
Variables minL minB : nat.
Variable kok : Z -> Prop.
Hypothesis LL : leaf_laws O M minL kok lrep.
Hypothesis EL : erase_core O M lrep lhint side.
Hypothesis HM : 1 <= M.
Hypothesis HmL : minL <= (M + 1) / 2.
Hypothesis HB : minB <= (N + 1) / 2 - 1.
Hypothesis HB1 : 1 <= minB.
Notation hp := (heap L).
Notation gt := (gt V).
Notation wf := (wf N M minL minB).
Notation inv := (inv N lrep).
Notation upd_ok := (upd_ok N lrep).
Notation wf0_leaf := (@wf0_leaf V N M minL minB _ _ _ _).

Lemma merge_upd h A i1 e1 i2 e2 B : inv h A [GL i1 e1; GL i2 e2] B -> sorted (e1 ++ e2) -> length e1 + length e2 <= M ->
  exists h1 h2, merge_leaf O h i1 i2 = Ok h1 /\ free_leaf h1 (Some i2) = Ok h2 /\ hb h2 = hb h /\
    upd_ok h A [GL i1 e1; GL i2 e2] B h2 [GL i1 (e1 ++ e2)].
Proof.
  intros I HS HL. destruct (merge_upd_gen (law_merge EL) I HS HL) as (h1 & E & Eb & _ & (l2 & El2) & HU).
  exists h1, (del_leaf h1 i2). unfold free_leaf, getl. rewrite El2. cbn [of_opt bind]. splits; auto.
  apply HU; auto. intros j Hj. cbn [del_leaf hl]. now rewrite upd_other.
Qed.

(** The right neighbour is the last leaf and is not freed. *)
Lemma merge_upd_last h A i1 e1 i2 e2 B : inv h A [GL i1 e1; GL i2 e2] B -> sorted (e1 ++ e2) -> length e1 + length e2 <= M ->
  hnx h i2 = None ->
  exists h1, merge_leaf O h i1 i2 = Ok h1 /\ free_leaf h1 (hnx h1 i1) = Ok h1 /\ hb h1 = hb h /\
    upd_ok h A [GL i1 e1; GL i2 e2] B h1 [GL i1 (e1 ++ e2)].
Proof.
  intros I HS HL HX. destruct (merge_upd_gen (law_merge EL) I HS HL) as (h1 & E & Eb & En & _ & HU).
  exists h1. splits; auto.
  destruct (inv_pair I) as (_ & _ & _ & _ & _ & _ & _ & _ & _ & _ & _ & _ & _ & _ & _ & _ & _ & _ & N2 & _).
  rewrite En, <- N2, HX. reflexivity.
Qed.

(** ** Underflow at leaf level *)

(** What a leaf with too few entries and its neighbours have to look like. *)
Definition good (h : hp) (id pos c : nat) : Prop :=
  (lo_del_after O = false \/ rm_ok M O h id pos c = Ok true) /\
  (forall l p pl, hl h c = Some l -> 0 < pos -> hpv h c = Some p -> hl h p = Some pl -> (M + 1) / 2 < lo_count O pl -> side true pl l) /\
  (forall l n nl b, hl h c = Some l -> hb h id = Some b -> pos < bn b -> hnx h c = Some n -> hl h n = Some nl ->
     (M + 1) / 2 < lo_count O nl ->
     (pos = 0 \/ exists p pl, hpv h c = Some p /\ hl h p = Some pl /\ lo_count O pl <= (M + 1) / 2) -> side false nl l).
Variable guard : hp -> nat -> nat -> nat -> res bool.
Hypothesis Hg : forall h id pos c, guard h id pos c = Ok true -> good h id pos c.
Definition all_good : Prop := forall h id pos c, good h id pos c.
Definition uf_same (t : tree L) A i (ks : list Z) (cs : list gt) B lo hi d (t' : tree L) : Prop :=
  troot t' = troot t /\ tdepth t' = tdepth t /\
  exists h2 b' ks' cs', th t' = set_branch h2 i b' /\ upd_ok (th t) A cs B h2 cs' /\
    brep N b' ks' (map (@gid V) cs') /\ kids (wf (mn minL minB d) d) lo ks' cs' hi /\
    ents cs' = ents cs /\ length ks <= S (length ks') /\ 1 <= length ks' <= length ks.
Definition uf_root (t : tree L) A (ks : list Z) (cs : list gt) B lo hi d (t' : tree L) : Prop :=
  length ks = 1 /\ tdepth t' = tdepth t - 1 /\
  exists g' : gt, gid g' = troot t' /\ upd_ok (th t) A cs B (th t') [g'] /\ wf (mn minL minB d) d lo hi g' /\
    ents [g'] = ents cs.

Lemma aset_key b (a : list Z) x bb cs y : brep N b (a ++ x :: bb) cs ->
  exists ks, aset (bk b) (length a) y = Ok ks /\ brep N (Branch (bn b) ks (bc b)) (a ++ y :: bb) cs.
Proof.
  intros (Hn & LK & LC & PK & PC). destruct (@pre_set Z (bk b) a x bb (length a) y PK eq_refl) as (ks & E & P & Q).
  exists ks. split; auto. unfold brep. cbn [bn bk bc]. splits; auto; try lia. rewrite app_length in *. exact Hn.
Qed.

Lemma fin_bal (t : tree L) A i b a0 x b0 CA0 i1 e1 i2 e2 CB0 B lo hi h1 y (w : V) e1' e2' :
  inv (th t) A (CA0 ++ [GL i1 e1; GL i2 e2] ++ CB0) B ->
  brep N b (a0 ++ x :: b0) (map (@gid V) (CA0 ++ [GL i1 e1; GL i2 e2] ++ CB0)) ->
  length CA0 = length a0 -> length CB0 = length b0 ->
  kl (wf minL 0) lo a0 CA0 -> kr (wf minL 0) b0 CB0 hi ->
  Forall (inb (lb lo a0) (Some x)) (keys e1) -> Forall (inb (Some x) (hbd b0 hi)) (keys e2) ->
  bl (lb lo a0) (Some x) -> bl (Some x) (hbd b0 hi) ->
  sorted (e1 ++ e2) -> e1 ++ e2 = e1' ++ (y, w) :: e2' -> e1' <> [] ->
  minL <= length e1' <= M -> minL <= S (length e2') <= M ->
  upd_ok (th t) (A ++ lids CA0) [GL i1 e1; GL i2 e2] (lids CB0 ++ B) h1 [GL i1 e1'; GL i2 ((y, w) :: e2')] ->
  exists ks, aset (bk b) (length a0) y = Ok ks /\
    uf_same t A i (a0 ++ x :: b0) (CA0 ++ [GL i1 e1; GL i2 e2] ++ CB0) B lo hi 0
      (Tree (set_branch h1 i (Branch (bn b) ks (bc b))) (troot t) (tdepth t)).
Proof.
  intros I Hb LA LB KL KR F1 F2 B1 B2 HS E NE C1 C2 U.
  destruct (aset_key y Hb) as (ks & E1 & Rb). exists ks. split; auto.
  unfold uf_same. cbn [troot tdepth th]. splits; auto.
  eexists h1, _, (a0 ++ y :: b0), (CA0 ++ [GL i1 e1'; GL i2 ((y, w) :: e2')] ++ CB0). splits.
  - reflexivity.
  - now apply upd_ctx.
  - rewrite !map_app in *. exact Rb.
  - change (y :: b0) with ([y] ++ b0). apply kids_ctx; auto. splits; auto. eapply bal_kids; eauto.
  - rewrite !ents_app. rewrite !(ents_two i1 _ i2). now rewrite E.
  - rewrite !app_length. cbn [length]. lia.
  - rewrite !app_length. cbn [length]. lia.
  - rewrite !app_length. cbn [length]. lia.
Qed.

Lemma fin_merge (t : tree L) A i b a0 x b0 CA0 i1 e1 i2 e2 CB0 B lo hi h2 pos :
  inv (th t) A (CA0 ++ [GL i1 e1; GL i2 e2] ++ CB0) B ->
  brep N b (a0 ++ x :: b0) (map (@gid V) (CA0 ++ [GL i1 e1; GL i2 e2] ++ CB0)) ->
  length CA0 = length a0 -> length CB0 = length b0 ->
  kl (wf minL 0) lo a0 CA0 -> kr (wf minL 0) b0 CB0 hi ->
  Forall (inb (lb lo a0) (Some x)) (keys e1) -> Forall (inb (Some x) (hbd b0 hi)) (keys e2) ->
  bl (lb lo a0) (Some x) -> bl (Some x) (hbd b0 hi) ->
  sorted (e1 ++ e2) -> minL <= length e1 + length e2 <= M ->
  upd_ok (th t) (A ++ lids CA0) [GL i1 e1; GL i2 e2] (lids CB0 ++ B) h2 [GL i1 (e1 ++ e2)] ->
  hb h2 i = Some b -> (if 0 <? pos then pos - 1 else pos) = length a0 ->
  exists t', (if 1 <? bn b then do h3 <- remove_child h2 i pos i1; Ok (Tree h3 (troot t) (tdepth t))
              else Ok (Tree h2 i1 (tdepth t - 1))) = Ok t' /\
    (uf_same t A i (a0 ++ x :: b0) (CA0 ++ [GL i1 e1; GL i2 e2] ++ CB0) B lo hi 0 t' \/
     uf_root t A (a0 ++ x :: b0) (CA0 ++ [GL i1 e1; GL i2 e2] ++ CB0) B lo hi 0 t').
Proof.
  intros I Hb LA LB KL KR F1 F2 B1 B2 HS HC U Eb Hp.
  assert (FA : Forall (inb (lb lo a0) (hbd b0 hi)) (keys (e1 ++ e2))).
  { rewrite keys_app, Forall_app. split.
    - rewrite Forall_forall in *. intros z Hz. apply F1 in Hz. eapply inb_weak; eauto. intros q. now apply bl_hib.
    - rewrite Forall_forall in *. intros z Hz. apply F2 in Hz. eapply inb_weak; eauto. intros q. now apply bl_lob. }
  assert (HW : wf minL 0 (lb lo a0) (hbd b0 hi) (GL i1 (e1 ++ e2))).
  { cbn [BTreeGhost.wf]. rewrite app_length. auto. }
  assert (Hbn : bn b = length (a0 ++ x :: b0)) by apply Hb.
  pose proof (upd_ctx I U) as UC.
  assert (EE : ents (CA0 ++ [GL i1 (e1 ++ e2)] ++ CB0) = ents (CA0 ++ [GL i1 e1; GL i2 e2] ++ CB0)).
  { rewrite !ents_app. now rewrite (ents_two i1 _ i2), ents_GL. }
  assert (HK : kids (wf minL 0) lo (a0 ++ b0) (CA0 ++ [GL i1 (e1 ++ e2)] ++ CB0) hi).
  { apply (@kids_ctx _ (wf minL 0) a0 CA0 b0 CB0 lo hi [] [GL i1 (e1 ++ e2)]); auto. splits; auto.
    cbn [kids]. split; auto. eapply bl_trans; eauto. }
  destruct (Nat.ltb_spec 1 (bn b)) as [H1|H1].
  - destruct (@remove_child_ok L N h2 i b a0 x b0 (map (@gid V) CA0) i1 i2 (map (@gid V) CB0) pos i1) as (b' & ER & Rb'); auto.
    { rewrite !map_app in Hb. exact Hb. }
    { now rewrite map_length. }
    { now rewrite map_length. }
    rewrite ER. cbn [bind]. eexists. split; [reflexivity|]. left. unfold uf_same. cbn [troot tdepth th]. splits; auto.
    eexists h2, b', (a0 ++ b0), (CA0 ++ [GL i1 (e1 ++ e2)] ++ CB0). rewrite app_length in *. cbn [length] in *. splits; auto.
    + rewrite !map_app. exact Rb'.
    + rewrite app_length. lia.
    + rewrite app_length. lia.
    + rewrite app_length. lia.
  - rewrite app_length in Hbn. cbn [length] in Hbn.
    destruct a0; [|cbn [length] in Hbn; lia]. destruct b0; [|cbn [length] in Hbn; lia].
    destruct CA0; [|discriminate]. destruct CB0; [|discriminate].
    eexists. split; [reflexivity|]. right. unfold uf_root. cbn [troot tdepth th app] in *. splits; auto.
    exists (GL i1 (e1 ++ e2)). splits; auto.
Qed.

Lemma leaf_uf t A i b a bb CA c ec CB B lo hi k l :
  inv (th t) A (CA ++ [GL c ec] ++ CB) B ->
  hb (th t) i = Some b -> brep N b (a ++ bb) (map (@gid V) (CA ++ [GL c ec] ++ CB)) ->
  length CA = length a -> length CB = length bb ->
  kl (wf minL 0) lo a CA -> kr (wf minL 0) bb CB hi ->
  bl (lb lo a) (hbd bb hi) ->
  sorted ec -> Forall (inb (lb lo a) (hbd bb hi)) (keys ec) -> minL - 1 <= length ec < (M + 1) / 2 ->
  hl (th t) c = Some l -> lhint l ec k -> inb (lb lo a) (hbd bb hi) k -> 1 <= length (a ++ bb) ->
  good (th t) i (length a) c ->
  exists t', underflow_leaf M O t i (length a) c = Ok t' /\
    (uf_same t A i (a ++ bb) (CA ++ [GL c ec] ++ CB) B lo hi 0 t' \/
     uf_root t A (a ++ bb) (CA ++ [GL c ec] ++ CB) B lo hi 0 t').
Proof.
  intros I Eb Hb LA LB KL KR BLC HS HF HC El Hh Hk H1 (HR0 & HSL & HSR).
  assert (Hbn : bn b = length (a ++ bb)) by apply Hb.
  (* the right neighbour, if there is one *)
  assert (NX : forall y b0, bb = y :: b0 -> exists n en CB0 ln, CB = GL n en :: CB0 /\ sorted en /\
     Forall (inb (Some y) (hbd b0 hi)) (keys en) /\ minL <= length en <= M /\ bl (Some y) (hbd b0 hi) /\
     kr (wf minL 0) b0 CB0 hi /\ hnx (th t) c = Some n /\ hl (th t) n = Some ln /\ lrep ln en /\
     inv (th t) (A ++ lids CA) [GL c ec; GL n en] (lids CB0 ++ B)).
  { intros y b0 ->. destruct CB as [|g CB0]; [discriminate|]. cbn [kr] in KR. destruct KR as (By & Wg & KR).
    apply wf0_leaf in Wg as (n & en & -> & Sn & Fn & Cn).
    change ([GL c ec] ++ GL n en :: CB0) with ([GL c ec; GL n en] ++ CB0) in I. apply inv_sub in I.
    destruct (inv_pair I) as (l1 & l2 & El1 & Hl1 & El2 & Hl2 & Hne & _ & _ & _ & _ & _ & _ & _ & _ & P1 & N1 & P2 & N2 & _).
    exists n, en, CB0, l2. splits; auto; lia. }
  unfold underflow_leaf. cbn zeta. unfold getb at 1. rewrite Eb. unfold getl at 1. rewrite El. cbn [of_opt bind].
  rewrite Hbn.
  (* what happens when no left neighbour can donate *)
  assert (RB : forall y b0, bb = y :: b0 -> forall en n ln CB0, CB = GL n en :: CB0 -> hnx (th t) c = Some n ->
     hl (th t) n = Some ln -> lrep ln en -> (M + 1) / 2 < length en -> side false ln l ->
     exists h1 nl kk ks, balance_leaf O (th t) n c = Ok h1 /\ getl h1 n = Ok nl /\ lo_minkey O nl = Ok kk /\
       aset (bk b) (length a) kk = Ok ks /\
       uf_same t A i (a ++ bb) (CA ++ [GL c ec] ++ CB) B lo hi 0
         (Tree (set_branch h1 i (Branch (length (a ++ bb)) ks (bc b))) (troot t) (tdepth t))).
  { intros y b0 -> en n ln CB0 -> E1 E2 R2 HG HSd.
    destruct (NX y b0 eq_refl) as (n' & en' & CB0' & ln' & EQ & Sn & Fn & Cn & By & KR' & N1 & El2 & Hl2 & IP).
    injection EQ as <- <- <-. rewrite E2 in El2. injection El2 as <-.
    cbn [hbd hd map] in HF, Hk.
    assert (SS : sorted (ec ++ en)) by (eapply sorted_pair; eauto).
    assert (KA : agt k (keys en)).
    { apply agt_in. rewrite Forall_forall in Fn. intros z Hz. apply Fn in Hz as [Hz _]. destruct Hk as [_ Hk]. simpl in *. lia. }
    destruct (@law_balance_right _ _ O M lrep lhint side EL ln l en ec k) as (d' & r' & e1 & e2 & EBal & Een & Le2 & Rd & Rr); auto; try lia.
    unfold balance_leaf, getl at 1 2. rewrite E2, El. cbn [of_opt bind]. rewrite EBal. cbn [bind fst snd].
    destruct (inv_pair IP) as (_ & _ & _ & _ & _ & _ & Hne & _).
    destruct e2 as [|[yy w] e2]; [cbn [length] in Le2; lia|].
    assert (U : upd_ok (th t) (A ++ lids CA) [GL c ec; GL n en] (lids CB0 ++ B) (set_leaf (set_leaf (th t) n d') c r')
                  [GL c (ec ++ e1); GL n ((yy, w) :: e2)]).
    { eapply pair_upd; eauto; cbn [set_leaf hl].
      - now rewrite upd_same'.
      - rewrite upd_other by auto. now rewrite upd_same'.
      - intros j J1 J2. now rewrite !upd_other by auto. }
    pose proof (f_equal (@length _) Een) as Hlen. rewrite app_length in Hlen. cbn [length] in Hlen, Le2.
    change ([GL c ec] ++ GL n en :: CB0) with ([GL c ec; GL n en] ++ CB0) in *.
    destruct (@fin_bal t A i b a y b0 CA c ec n en CB0 B lo hi (set_leaf (set_leaf (th t) n d') c r') yy w (ec ++ e1) e2 I Hb) as (ks & EK & FIN); auto.
    - subst en. now rewrite <- app_assoc.
    - intros Hc. apply app_eq_nil in Hc as [-> ->]. cbn [length] in *. lia.
    - rewrite app_length. lia.
    - lia.
    - eexists _, d', yy, ks. splits; auto.
      + unfold getl. cbn [set_leaf hl]. rewrite upd_other by auto. rewrite upd_same'. reflexivity.
      + eapply (law_minkey EL). exact Rd.
      + rewrite <- Hbn. exact FIN. }
  destruct (rev_case a) as [->|(a0 & x & ->)].
  - (* leftmost child *)
    change (0 <? length (@nil Z)) with false. cbn [andb bind app] in *. destruct bb as [|y b0]; [cbn [length] in H1; lia|].
    destruct CA; [|discriminate].
    destruct (NX y b0 eq_refl) as (n & en & CB0 & ln & -> & Sn & Fn & Cn & By & KR' & N1 & El2 & Hl2 & IP).
    change (length (@nil Z) <? length (y :: b0)) with true. cbn [andb]. rewrite N1. cbn [of_opt bind]. unfold getl at 1. rewrite El2. cbn [of_opt bind].
    rewrite (law_count LL Hl2).
    destruct (Nat.ltb_spec ((M + 1) / 2) (length en)) as [HG|HG].
    + destruct (RB y b0 eq_refl en n ln CB0 eq_refl N1 El2 Hl2 HG ltac:(eapply HSR; eauto; [rewrite Hbn; cbn [length]; lia|now rewrite (law_count LL Hl2)])) as (h1 & nl & kk & ks & -> & E2 & E3 & E4 & FIN).
      cbn [bind]. rewrite E2. cbn [bind]. rewrite E3. cbn [bind]. rewrite E4. cbn [bind].
      eexists. split; [reflexivity|]. left. exact FIN.
    + destruct (Nat.leb_spec (length en) ((M + 1) / 2)) as [_|Hx]; [|lia].
      cbn [hbd hd map] in HF, Hk, BLC.
      assert (SS : sorted (ec ++ en)) by (eapply sorted_pair; eauto).
      assert (MG : exists h1 h2, merge_leaf O (th t) c n = Ok h1 /\
        free_leaf h1 (if lo_del_after O then hnx h1 c else Some n) = Ok h2 /\ hb h2 = hb (th t) /\
        upd_ok (th t) (A ++ lids (@nil gt)) [GL c ec; GL n en] (lids CB0 ++ B) h2 [GL c (ec ++ en)]).
      { destruct (lo_del_after O) eqn:ED.
        - destruct HR0 as [HR0|HR0]; [discriminate|]. unfold rm_ok in HR0. change (0 <? length (@nil Z)) with false in HR0; cbv iota in HR0.
          rewrite N1 in HR0. unfold getl in HR0. cbn [of_opt bind] in HR0. rewrite El2 in HR0. cbn [of_opt bind] in HR0.
          rewrite (law_count LL Hl2) in HR0.
          destruct (Nat.ltb_spec ((M + 1) / 2) (length en)) as [Hx|_]; [lia|]. cbn [orb] in HR0.
          destruct (hnx (th t) n) eqn:HX; [discriminate|].
          destruct (@merge_upd_last (th t) _ c ec n en _ IP SS ltac:(lia) HX) as (h1 & E1 & E2 & EB & U).
          exists h1, h1. splits; auto.
        - exact (@merge_upd (th t) _ c ec n en _ IP SS ltac:(lia)). }
      destruct MG as (h1 & h2 & E1 & E2 & EB & U).
      rewrite E1. cbn [bind]. rewrite E2. cbn [bind].
      change (GL c ec :: GL n en :: CB0) with ([] ++ [GL c ec; GL n en] ++ CB0) in *.
      pose proof (@fin_merge t A i b [] y b0 [] c ec n en CB0 B lo hi h2 (length (@nil Z)) I Hb eq_refl) as FM.
      rewrite Hbn in FM. apply FM; auto.
      * cbn [app length] in LB. lia.
      * now rewrite EB.
  - rewrite app_length in LA. cbn [length] in LA.
    destruct (rev_case CA) as [->|(CA0 & g & ->)]; [cbn [length] in LA; lia|].
    rewrite app_length in LA. cbn [length] in LA. assert (LA0 : length CA0 = length a0) by lia.
    apply kl_snoc in KL; [|exact LA0]. destruct KL as (KL & Bx & Wg).
    apply wf0_leaf in Wg as (p & ep & -> & Sp & Fp & Cp). rewrite lb_snoc in *.
    assert (I2 : inv (th t) A (CA0 ++ [GL p ep; GL c ec] ++ CB) B).
    { rewrite <- app_assoc in I. exact I. }
    pose proof (inv_sub I2) as IP.
    destruct (inv_pair IP) as (lp & l2 & Elp & Hlp & El2 & Hl2 & Hne & _ & _ & _ & _ & _ & _ & _ & _ & P1 & N1 & P2 & N2 & _).
    rewrite El in El2. injection El2 as <-.
    assert (SS : sorted (ep ++ ec)) by (eapply sorted_pair; eauto).
    assert (Hb2 : brep N b (a0 ++ x :: bb) (map (@gid V) (CA0 ++ [GL p ep; GL c ec] ++ CB))).
    { rewrite <- !app_assoc in Hb. exact Hb. }
    replace (0 <? length (a0 ++ [x])) with true by (symmetry; apply Nat.ltb_lt; rewrite app_length; cbn [length]; lia).
    rewrite P2. cbn [of_opt bind andb]. unfold getl at 1. rewrite Elp. cbn [of_opt bind]. rewrite (law_count LL Hlp).
    replace (length (a0 ++ [x]) - 1) with (length a0) by (rewrite app_length; cbn [length]; lia).
    destruct (Nat.ltb_spec ((M + 1) / 2) (length ep)) as [HG|HG].
    + (* balance with the left neighbour *)
      assert (KA : alt k (keys ep)).
      { apply alt_in. rewrite Forall_forall in Fp. intros z Hz. apply Fp in Hz as [_ Hz]. destruct Hk as [Hk _]. simpl in *. lia. }
      destruct (@law_balance_left _ _ O M lrep lhint side EL lp l ep ec k) as (d' & r' & e1 & e2 & EBal & Eep & Le1 & Rd & Rr); auto; try lia.
      { eapply HSL; eauto; [rewrite app_length; cbn [length]; lia|]. now rewrite (law_count LL Hlp). }
      unfold balance_leaf, getl at 1 2. rewrite Elp, El. cbn [of_opt bind]. rewrite EBal. cbn [bind fst snd].
      pose proof (f_equal (@length _) Eep) as Hlen. rewrite app_length in Hlen.
      destruct e2 as [|[yy w] e2]; [cbn [length] in Hlen; lia|]. cbn [length] in Hlen.
      assert (U : upd_ok (th t) (A ++ lids CA0) [GL p ep; GL c ec] (lids CB ++ B) (set_leaf (set_leaf (th t) p d') c r')
                    [GL p e1; GL c ((yy, w) :: e2 ++ ec)]).
      { eapply pair_upd; eauto; cbn [set_leaf hl].
        - rewrite upd_other by auto. now rewrite upd_same'.
        - now rewrite upd_same'.
        - intros j J1 J2. now rewrite !upd_other by auto. }
      unfold getl at 1. cbn [set_leaf hl]. rewrite upd_same'. cbn [of_opt bind].
      rewrite (law_minkey EL Rr). cbn [bind].
      destruct (@fin_bal t A i b a0 x bb CA0 p ep c ec CB B lo hi (set_leaf (set_leaf (th t) p d') c r') yy w e1 (e2 ++ ec) I2 Hb2)
        as (ks & EK & FIN); auto.
      * subst ep. now rewrite <- app_assoc.
      * intros ->. cbn [length] in *. lia.
      * lia.
      * rewrite app_length. lia.
      * rewrite EK. cbn [bind]. eexists. split; [reflexivity|]. left.
        rewrite <- !app_assoc. rewrite Hbn in FIN. rewrite <- app_assoc in FIN. exact FIN.
    + assert (ML : forall h1 h2, merge_leaf O (th t) p c = Ok h1 -> free_leaf h1 (Some c) = Ok h2 -> hb h2 = hb (th t) ->
          upd_ok (th t) (A ++ lids CA0) [GL p ep; GL c ec] (lids CB ++ B) h2 [GL p (ep ++ ec)] ->
          exists t', (if 1 <? length ((a0 ++ [x]) ++ bb) then do h3 <- remove_child h2 i (length (a0 ++ [x])) p; Ok (Tree h3 (troot t) (tdepth t))
              else Ok (Tree h2 p (tdepth t - 1))) = Ok t' /\
           (uf_same t A i ((a0 ++ [x]) ++ bb) ((CA0 ++ [GL p ep]) ++ [GL c ec] ++ CB) B lo hi 0 t' \/
            uf_root t A ((a0 ++ [x]) ++ bb) ((CA0 ++ [GL p ep]) ++ [GL c ec] ++ CB) B lo hi 0 t')).
      { intros h1 h2 _ _ EB U. rewrite <- Hbn, <- !app_assoc. cbn [app].
        pose proof (@fin_merge t A i b a0 x bb CA0 p ep c ec CB B lo hi h2 (length (a0 ++ [x])) I2 Hb2) as FM.
        apply FM; auto.
        - lia.
        - now rewrite EB.
        - rewrite app_length. cbn [length]. destruct (Nat.ltb_spec 0 (length a0 + 1)); lia. }
      destruct (@merge_upd (th t) _ p ep c ec _ IP SS ltac:(lia)) as (h1 & h2 & E1 & E2 & EB & U).
      specialize (ML h1 h2 E1 E2 EB U).
      destruct (Nat.leb_spec (length ep) ((M + 1) / 2)) as [_|Hx]; [|lia].
      destruct bb as [|y b0].
      * rewrite app_nil_r in *. rewrite Nat.ltb_irrefl. cbn [bind andb].
        rewrite E1. cbn [bind]. rewrite E2. cbn [bind]. exact ML.
      * destruct (NX y b0 eq_refl) as (n & en & CB0 & ln & -> & Sn & Fn & Cn & By & KR' & N1' & Eln & Hln & IP').
        replace (length (a0 ++ [x]) <? length ((a0 ++ [x]) ++ y :: b0)) with true
          by (symmetry; apply Nat.ltb_lt; rewrite !app_length; cbn [length]; lia).
        cbn [andb]. rewrite N1'. cbn [of_opt bind]. unfold getl at 1. rewrite Eln. cbn [of_opt bind]. rewrite (law_count LL Hln).
        destruct (Nat.ltb_spec ((M + 1) / 2) (length en)) as [HG2|HG2].
        -- destruct (RB y b0 eq_refl en n ln CB0 eq_refl N1' Eln Hln HG2 ltac:(eapply HSR; eauto;
             [rewrite Hbn, !app_length; cbn [length]; lia|now rewrite (law_count LL Hln)|right; exists p, lp; rewrite (law_count LL Hlp); auto])) as (h1' & nl & kk & ks & -> & F2 & F3 & F4 & FIN).
           cbn [bind]. rewrite F2. cbn [bind]. rewrite F3. cbn [bind]. rewrite F4. cbn [bind].
           eexists. split; [reflexivity|]. left. exact FIN.
        -- rewrite E1. cbn [bind]. rewrite E2. cbn [bind]. exact ML.
Qed.

(** ** Two neighbouring branch nodes *)

(** Only branch nodes changed; the leaves are the same. *)
Lemma regroup_upd h A gs B h' gs' : inv h A gs B ->
  lvs gs' = lvs gs -> Forall (bok N h') (nds gs') -> NoDup (bids gs') -> incl (bids gs') (bids gs) ->
  hl h' = hl h -> hnx h' = hnx h -> hpv h' = hpv h -> hfresh h' = hfresh h ->
  (forall j, ~ In j (bids gs) -> hb h' j = hb h j) ->
  upd_ok h A gs B h' gs'.
Proof.
  intros [I1 I2 I3 I4 I5 I6 I7 I8] EL' FB ND IN El En Ep Ef Eo.
  assert (EI : lids gs' = lids gs) by (unfold lids; now rewrite EL').
  constructor.
  - constructor; rewrite ?EI, ?EL'; auto.
    + eapply lok_frame; [|exact I1]. intros j _. now rewrite El.
    + rewrite Ef. exact I5.
    + intros j Hj. rewrite Ef. auto.
    + intros j Hj. destruct (I7 j Hj) as [l E]. exists l. now rewrite El.
    + eapply seg_frame; [|exact I8]. intros j _. now rewrite En, Ep.
  - constructor; [lia| |].
    + intros j _ _. now rewrite El.
    + intros j _ Hj. auto.
  - intros j. rewrite EI. auto.
  - intros j Hj. left. auto.
  - now rewrite EI.
Qed.

Lemma bpair_bids i1 k1 c1 i2 k2 c2 : bids [GB i1 k1 c1; GB i2 k2 c2 : gt] = i1 :: bids c1 ++ i2 :: bids c2.
Proof.
  change [GB i1 k1 c1; GB i2 k2 c2] with ([GB i1 k1 c1] ++ [GB i2 k2 c2] : list gt).
  now rewrite bids_app, !bids_GB.
Qed.
Lemma bpair_nds i1 k1 c1 i2 k2 c2 : nds [GB i1 k1 c1; GB i2 k2 c2 : gt] =
  (i1, (k1, map (@gid V) c1)) :: nds c1 ++ (i2, (k2, map (@gid V) c2)) :: nds c2.
Proof.
  change [GB i1 k1 c1; GB i2 k2 c2] with ([GB i1 k1 c1] ++ [GB i2 k2 c2] : list gt).
  now rewrite nds_app, !nds_GB.
Qed.
Lemma bpair_lvs i1 k1 c1 i2 k2 c2 : lvs [GB i1 k1 c1; GB i2 k2 c2 : gt] = lvs (c1 ++ c2).
Proof.
  change [GB i1 k1 c1; GB i2 k2 c2] with ([GB i1 k1 c1] ++ [GB i2 k2 c2] : list gt).
  now rewrite !lvs_app, !lvs_GB.
Qed.
Lemma bpair_ents i1 k1 c1 i2 k2 c2 : ents [GB i1 k1 c1; GB i2 k2 c2 : gt] = ents (c1 ++ c2).
Proof. unfold ents. now rewrite bpair_lvs. Qed.

Lemma inv_bpair h A i1 k1 c1 i2 k2 c2 B : inv h A [GB i1 k1 c1; GB i2 k2 c2] B ->
  i1 <> i2 /\ ~ In i1 (bids (c1 ++ c2)) /\ ~ In i2 (bids (c1 ++ c2)) /\ NoDup (bids (c1 ++ c2)) /\
  Forall (bok N h) (nds (c1 ++ c2)) /\
  (exists b1, hb h i1 = Some b1 /\ brep N b1 k1 (map (@gid V) c1)) /\
  (exists b2, hb h i2 = Some b2 /\ brep N b2 k2 (map (@gid V) c2)).
Proof.
  intros [I1 I2 I3 I4 I5 I6 I7 I8]. rewrite bpair_bids in I4. rewrite bpair_nds in I2.
  inversion I2 as [|? ? F1 F2]; subst. apply Forall_app in F2 as [F2 F3]. inversion F3 as [|? ? F4 F5]; subst.
  inversion I4 as [|? ? N1 N2]; subst. apply NoDup_app_inv in N2 as (N2 & N3 & N4). inversion N3 as [|? ? N5 N6]; subst.
  rewrite in_app_iff in N1. cbn [In] in N1. rewrite !bids_app, !nds_app, !in_app_iff. splits; auto; try tauto.
  - intros [Hc|Hc]; [|auto]. eapply N4; eauto. simpl; auto.
  - apply NoDup_app_mk; auto. intros x Hx Hy. eapply N4; eauto. simpl; auto.
  - apply Forall_app; auto.
Qed.

Lemma bpair_upd h A i1 k1 c1 i2 k2 c2 B h' b1 b2 k1' c1' k2' c2' :
  inv h A [GB i1 k1 c1; GB i2 k2 c2] B -> c1' ++ c2' = c1 ++ c2 ->
  hl h' = hl h -> hnx h' = hnx h -> hpv h' = hpv h -> hfresh h' = hfresh h ->
  hb h' i1 = Some b1 -> hb h' i2 = Some b2 -> (forall j, j <> i1 -> j <> i2 -> hb h' j = hb h j) ->
  brep N b1 k1' (map (@gid V) c1') -> brep N b2 k2' (map (@gid V) c2') ->
  upd_ok h A [GB i1 k1 c1; GB i2 k2 c2] B h' [GB i1 k1' c1'; GB i2 k2' c2'].
Proof.
  intros I EC El En Ep Ef E1 E2 Eo R1 R2.
  destruct (inv_bpair I) as (Hne & H1 & H2 & ND & FB & _ & _). rewrite <- EC in *.
  rewrite bids_app in *. rewrite nds_app in *. rewrite in_app_iff in *.
  apply NoDup_app_inv in ND as (N1 & N2 & N3). apply Forall_app in FB as [F1 F2].
  apply regroup_upd; auto.
  - rewrite !bpair_lvs. now rewrite EC.
  - rewrite bpair_nds. constructor; [exists b1; auto|]. apply Forall_app. split; [|constructor; [exists b2; auto|]].
    + eapply bok_frame; [|exact F1]. intros j Hj. fold (bids c1') in Hj. apply Eo; intros ->; tauto.
    + eapply bok_frame; [|exact F2]. intros j Hj. fold (bids c2') in Hj. apply Eo; intros ->; tauto.
  - rewrite bpair_bids. constructor.
    + rewrite in_app_iff. cbn [In]. intros [?|[?|?]]; try tauto. congruence.
    + apply NoDup_app_mk; auto; [constructor; tauto|]. intros x Hx [<-|Hy]; [tauto|eauto].
  - rewrite !bpair_bids. intros j. cbn [In]. rewrite !in_app_iff. cbn [In].
    assert (HI : In j (bids (c1' ++ c2')) -> In j (bids (c1 ++ c2))) by now rewrite EC.
    rewrite !bids_app, !in_app_iff in HI. tauto.
  - intros j. rewrite bpair_bids. cbn [In]. rewrite in_app_iff. cbn [In]. intros Hj. apply Eo; intros ->; tauto.
Qed.

Lemma bmerge_upd h A i1 k1 c1 i2 k2 c2 B h' b1 k1' :
  inv h A [GB i1 k1 c1; GB i2 k2 c2] B ->
  hl h' = hl h -> hnx h' = hnx h -> hpv h' = hpv h -> hfresh h' = hfresh h ->
  hb h' i1 = Some b1 -> (forall j, j <> i1 -> j <> i2 -> hb h' j = hb h j) ->
  brep N b1 k1' (map (@gid V) (c1 ++ c2)) ->
  upd_ok h A [GB i1 k1 c1; GB i2 k2 c2] B h' [GB i1 k1' (c1 ++ c2)].
Proof.
  intros I El En Ep Ef E1 Eo R1.
  destruct (inv_bpair I) as (Hne & H1 & H2 & ND & FB & _ & _).
  apply regroup_upd; auto.
  - now rewrite !bpair_lvs, lvs_GB.
  - rewrite nds_GB. constructor; [exists b1; auto|].
    eapply bok_frame; [|exact FB]. intros j Hj. fold (bids (c1 ++ c2)) in Hj. apply Eo; intros ->; tauto.
  - rewrite bids_GB. constructor; auto.
  - rewrite bids_GB, bpair_bids. intros j. rewrite bids_app. cbn [In]. rewrite !in_app_iff. cbn [In]. tauto.
  - intros j. rewrite bpair_bids. cbn [In]. rewrite in_app_iff. cbn [In]. intros Hj. apply Eo; intros ->; tauto.
Qed.

(** ** Underflow at branch level *)
Definition ufb_post (h : hp) A i (ks : list Z) (cs : list gt) B lo hi d (h' : hp) (c' : nat) : Prop :=
  exists h2 b' ks' cs', h' = set_branch h2 i b' /\ upd_ok h A cs B h2 cs' /\
    brep N b' ks' (map (@gid V) cs') /\ kids (wf minB (S d)) lo ks' cs' hi /\
    ents cs' = ents cs /\ length ks <= S (length ks') /\ length ks' <= length ks /\
    (ks' = [] -> exists g', cs' = [g'] /\ gid g' = c').

Lemma wfS_branch m d lo hi (g : gt) : wf m (S d) lo hi g ->
  exists j ks cs, g = GB j ks cs /\ m <= length ks <= N /\ kids (wf (mn minL minB d) d) lo ks cs hi.
Proof. destruct g as [j es|j ks cs]; simpl; [tauto|]. eauto. Qed.

Lemma ufb_bal (h : hp) A i b a0 x b0 CA0 i1 k1 c1 i2 k2 c2 CB0 B lo hi d h1 h2 bp s k1' c1' k2' c2' c' :
  inv h A (CA0 ++ [GB i1 k1 c1; GB i2 k2 c2] ++ CB0) B ->
  length CA0 = length a0 -> length CB0 = length b0 ->
  kl (wf minB (S d)) lo a0 CA0 -> kr (wf minB (S d)) b0 CB0 hi ->
  kids (wf (mn minL minB d) d) (lb lo a0) (k1 ++ x :: k2) (c1 ++ c2) (hbd b0 hi) ->
  k1 ++ x :: k2 = k1' ++ s :: k2' -> c1 ++ c2 = c1' ++ c2' -> length c1' = S (length k1') ->
  minB <= length k1' <= N -> minB <= length k2' <= N ->
  upd_ok h (A ++ lids CA0) [GB i1 k1 c1; GB i2 k2 c2] (lids CB0 ++ B) h2 [GB i1 k1' c1'; GB i2 k2' c2'] ->
  brep N b (a0 ++ s :: b0) (map (@gid V) (CA0 ++ [GB i1 k1 c1; GB i2 k2 c2] ++ CB0)) ->
  h1 = set_branch h2 i b ->
  bp = a0 ++ x :: b0 ->
  ufb_post h A i bp (CA0 ++ [GB i1 k1 c1; GB i2 k2 c2] ++ CB0) B lo hi d h1 c'.
Proof.
  intros I LA LB KL KR KK EK EC LC C1 C2 U Rb -> ->. rewrite EK, EC in KK. apply kids_cut in KK as [K1 K2]; auto.
  eexists h2, b, (a0 ++ s :: b0), (CA0 ++ [GB i1 k1' c1'; GB i2 k2' c2'] ++ CB0). splits; auto.
  - now apply upd_ctx.
  - rewrite !map_app in *. exact Rb.
  - change (s :: b0) with ([s] ++ b0). apply kids_ctx; auto. splits; auto. cbn [kids]. splits.
    + eapply kids_bl; eauto.
    + split; auto.
    + eapply kids_bl; eauto.
    + split; auto.
  - rewrite !ents_app, !bpair_ents. now rewrite EC.
  - rewrite !app_length. cbn [length]. lia.
  - rewrite !app_length. cbn [length]. lia.
  - intros Hc. apply app_eq_nil in Hc as [_ Hc]. discriminate.
Qed.

Lemma ufb_merge (h : hp) A i b a0 x b0 CA0 i1 k1 c1 i2 k2 c2 CB0 B lo hi d h1 h2 bp c' :
  inv h A (CA0 ++ [GB i1 k1 c1; GB i2 k2 c2] ++ CB0) B ->
  length CA0 = length a0 -> length CB0 = length b0 ->
  kl (wf minB (S d)) lo a0 CA0 -> kr (wf minB (S d)) b0 CB0 hi ->
  kids (wf (mn minL minB d) d) (lb lo a0) (k1 ++ x :: k2) (c1 ++ c2) (hbd b0 hi) ->
  minB <= length (k1 ++ x :: k2) <= N ->
  upd_ok h (A ++ lids CA0) [GB i1 k1 c1; GB i2 k2 c2] (lids CB0 ++ B) h2 [GB i1 (k1 ++ x :: k2) (c1 ++ c2)] ->
  brep N b (a0 ++ b0) (map (@gid V) (CA0 ++ [GB i1 k1 c1] ++ CB0)) ->
  h1 = set_branch h2 i b ->
  bp = a0 ++ x :: b0 -> c' = i1 ->
  ufb_post h A i bp (CA0 ++ [GB i1 k1 c1; GB i2 k2 c2] ++ CB0) B lo hi d h1 c'.
Proof.
  intros I LA LB KL KR KK C U Rb -> -> ->.
  eexists h2, b, (a0 ++ b0), (CA0 ++ [GB i1 (k1 ++ x :: k2) (c1 ++ c2)] ++ CB0). splits; auto.
  - now apply upd_ctx.
  - rewrite !map_app in *. exact Rb.
  - apply (@kids_ctx _ (wf minB (S d)) a0 CA0 b0 CB0 lo hi [] [_]); auto. splits; auto. cbn [kids]. split.
    + eapply kids_bl; eauto.
    + split; auto.
  - rewrite !ents_app, !bpair_ents, ents_GB. reflexivity.
  - rewrite !app_length. cbn [length]. lia.
  - rewrite !app_length. cbn [length]. lia.
  - intros Hc. apply app_eq_nil in Hc as [-> ->]. destruct CA0; [|discriminate]. destruct CB0; [|discriminate].
    eexists. split; reflexivity.
Qed.

Lemma branch_uf (h : hp) A i b a bb CA c kc cc CB B lo hi d :
  inv h A (CA ++ [GB c kc cc] ++ CB) B -> ~ In i (bids (CA ++ [GB c kc cc] ++ CB)) ->
  hb h i = Some b -> brep N b (a ++ bb) (map (@gid V) (CA ++ [GB c kc cc] ++ CB)) ->
  length CA = length a -> length CB = length bb ->
  kl (wf minB (S d)) lo a CA -> kr (wf minB (S d)) bb CB hi -> bl (lb lo a) (hbd bb hi) ->
  kids (wf (mn minL minB d) d) (lb lo a) kc cc (hbd bb hi) ->
  minB - 1 <= length kc < (N + 1) / 2 -> 1 <= length kc -> 1 <= length (a ++ bb) ->
  2 * ((N + 1) / 2) <= N \/ (exists r, room N h i (length a) c r = Ok true) ->
  exists h' c', underflow_branch N h i (length a) c = Ok (h', c') /\
    ufb_post h A i (a ++ bb) (CA ++ [GB c kc cc] ++ CB) B lo hi d h' c'.
Proof.
  intros I Hni Eb Hb LA LB KL KR BLC KC HC HC1 H1 HF.
  assert (Hbn : bn b = length (a ++ bb)) by apply Hb.
  assert (Hkc : kc <> []) by (intros ->; cbn [length] in HC1; lia).
  pose proof (kids_length KC) as LCc.
  (* the right neighbour, if there is one *)
  assert (NX : forall y b0, bb = y :: b0 -> exists n kn cn CB0 nb, CB = GB n kn cn :: CB0 /\ length CB0 = length b0 /\
     minB <= length kn <= N /\ kids (wf (mn minL minB d) d) (Some y) kn cn (hbd b0 hi) /\
     kr (wf minB (S d)) b0 CB0 hi /\ aget (bc b) (length a + 1) = Ok n /\ hb h n = Some nb /\
     brep N nb kn (map (@gid V) cn) /\ n <> c /\ n <> i /\
     inv h (A ++ lids CA) [GB c kc cc; GB n kn cn] (lids CB0 ++ B)).
  { intros y b0 ->. destruct CB as [|g CB0]; [discriminate|]. cbn [kr] in KR. destruct KR as (By & Wg & KR).
    apply wfS_branch in Wg as (n & kn & cn & -> & Cn & Kn).
    change ([GB c kc cc] ++ GB n kn cn :: CB0) with ([GB c kc cc; GB n kn cn] ++ CB0) in I, Hni. apply inv_sub in I.
    destruct (inv_bpair I) as (Hne & _ & _ & _ & _ & _ & (nb & Enb & Rnb)).
    exists n, kn, cn, CB0, nb. splits; auto; try lia.
    - eapply brep_kid; [exact Hb|]. rewrite map_app. cbn [map app]. rewrite nth_error_app2 by (rewrite map_length; lia).
      rewrite map_length. replace (length a + 1 - length CA) with 1 by lia. reflexivity.
    - intros ->. apply Hni. rewrite !bids_app, bpair_bids. rewrite !in_app_iff. cbn [In]. rewrite in_app_iff. cbn [In]. tauto. }
  assert (Hci : c <> i).
  { intros ->. apply Hni. rewrite !bids_app, bids_GB. rewrite !in_app_iff. cbn [In]. tauto. }
  assert (CBk : exists cb, hb h c = Some cb /\ brep N cb kc (map (@gid V) cc)).
  { apply inv_sub in I. apply inv_GB in I as (_ & _ & _ & (cb & E & R)). eauto. }
  destruct CBk as (cb & Ecb & Rcb).
  assert (LCc' : length (map (@gid V) cc) = S (length kc)) by now rewrite map_length.
  unfold underflow_branch. cbn zeta. unfold getb at 1. rewrite Eb. cbn [of_opt bind]. rewrite Hbn.
  assert (RB : forall y b0, bb = y :: b0 -> forall n kn cn CB0 nb, CB = GB n kn cn :: CB0 -> hb h n = Some nb ->
     brep N nb kn (map (@gid V) cn) -> (N + 1) / 2 < length kn ->
     exists h', balance_branch h n c i (length a) = Ok h' /\
       ufb_post h A i (a ++ bb) (CA ++ [GB c kc cc] ++ CB) B lo hi d h' c).
  { intros y b0 -> n kn cn CB0 nb -> Enb Rnb HG.
    destruct (NX y b0 eq_refl) as (n' & kn' & cn' & CB0' & nb' & EQ & LB0 & Cn & Kn & KR' & _ & En' & _ & Hnc & Hnin & IP).
    injection EQ as <- <- <- <-.
    cbn [hbd hd map] in KC, BLC.
    pose proof (kids_length Kn) as LCn.
    assert (LCn' : length (map (@gid V) cn) = S (length kn)) by now rewrite map_length.
    destruct (@balance_branch_right_ok L N h n c i nb cb b kn (map (@gid V) cn) kc (map (@gid V) cc) a y b0
                (map (@gid V) (CA ++ [GB c kc cc] ++ GB n kn cn :: CB0)))
      as (d1 & s & d2 & e1 & e2 & db' & rb' & pb' & EBal & Ekn & Ecn & Le1 & Ld2 & R1 & R2 & R3); auto; try lia.
    { intros x z Hx Hz. destruct (kids_sorted Kn) as [_ Fn]. destruct (kids_sorted KC) as [_ Fc].
      rewrite Forall_forall in Fn, Fc. apply Fn in Hx as [Hx _]. apply Fc in Hz as [_ Hz]. simpl in *. lia. }
    apply map_eq_app in Ecn as (f1 & f2 & -> & <- & <-). rewrite map_length in Le1.
    rewrite EBal. eexists. split; [reflexivity|].
    change ([GB c kc cc] ++ GB n kn (f1 ++ f2) :: CB0) with ([GB c kc cc; GB n kn (f1 ++ f2)] ++ CB0) in *.
    pose proof (f_equal (@length _) Ekn) as Hlen. rewrite app_length in Hlen. cbn [length] in Hlen.
    eapply (@ufb_bal h A i pb' a y b0 CA c kc cc n kn (f1 ++ f2) CB0 B lo hi d _ (set_branch (set_branch h c rb') n db') _ s
              (kc ++ y :: d1) (cc ++ f1) d2 f2); eauto.
    - apply kids_cut; auto.
    - subst kn. rewrite <- app_assoc. reflexivity.
    - rewrite app_assoc. reflexivity.
    - rewrite !app_length. cbn [length]. lia.
    - rewrite app_length. cbn [length]. lia.
    - lia.
    - eapply (@bpair_upd h); eauto; cbn [set_branch hb].
      + rewrite <- app_assoc. reflexivity.
      + rewrite upd_other by auto. now rewrite upd_same.
      + now rewrite upd_same.
      + intros j J1 J2. now rewrite !upd_other by auto.
      + rewrite map_app. exact R2. }
  destruct (rev_case a) as [->|(a0 & x & ->)].
  - (* leftmost child *)
    change (0 <? length (@nil Z)) with false. cbn [andb bind app] in *. destruct bb as [|y b0]; [cbn [length] in H1; lia|].
    destruct CA; [|discriminate].
    destruct (NX y b0 eq_refl) as (n & kn & cn & CB0 & nb & -> & LB0 & Cn & Kn & KR' & EA & Enb & Rnb & Hnc & Hnin & IP).
    change (length (@nil Z) <? length (y :: b0)) with true. cbn [andb]. rewrite EA. cbn [bind]. unfold getb at 1.
    rewrite Enb. cbn [of_opt bind].
    assert (Hnbn : bn nb = length kn) by apply Rnb. rewrite Hnbn.
    destruct (Nat.ltb_spec ((N + 1) / 2) (length kn)) as [HG|HG].
    + destruct (RB y b0 eq_refl n kn cn CB0 nb eq_refl Enb Rnb HG) as (h' & -> & FIN).
      cbn [bind]. eexists _, _. split; [reflexivity|]. exact FIN.
    + assert (HFT : length kc + 1 + length kn <= N).
      { destruct HF as [HF|(r & HF)]; [lia|]. unfold room, getb in HF. rewrite Eb, Ecb in HF. cbn [of_opt bind length] in HF.
        change (0 <? 0) with false in HF. cbv iota in HF. cbn [bind] in HF. rewrite Hbn in HF. change (0 <? length (y :: b0)) with true in HF. cbv iota in HF.
        change (length (@nil Z)) with 0 in EA. rewrite EA in HF. cbn [bind] in HF. rewrite Enb in HF. cbn [of_opt bind] in HF. injection HF as HF. rewrite Hnbn in HF.
        assert (Hcbn : bn cb = length kc) by apply Rcb. rewrite Hcbn in HF.
        apply orb_prop in HF as [HF|HF]; [apply Nat.ltb_lt in HF; lia|].
        apply andb_prop in HF as [_ HF]. change (0 <? 0) with false in HF. cbv iota in HF. apply Nat.leb_le in HF. lia. }
      destruct (Nat.ltb_spec 0 (length kn)) as [_|Hx]; [|lia]. change (0 <? 0) with false. cbv iota.
      change (aget (bk b) (length (@nil Z))) with (aget (bk b) 0).
      rewrite (@brep_key N b (y :: b0) _ 0 y Hb eq_refl). cbn [bind].
      pose proof (kids_length Kn) as LCn.
      destruct (@merge_branch_ok L N h c n cb nb kc (map (@gid V) cc) kn (map (@gid V) cn) y) as (b' & EM & RM); auto.
      { rewrite map_length. lia. }
      rewrite EM. cbn [bind]. unfold free_branch, getb at 1. cbn [set_branch hb]. rewrite upd_other by auto.
      rewrite Enb. cbn [of_opt bind].
      destruct (@remove_branch_child_ok L N (del_branch (set_branch h c b') n) i b [] y b0 [] c n (map (@gid V) CB0) 0 0)
        as (b2 & ER & R2); auto.
      { cbn [del_branch set_branch hb]. rewrite !upd_other by auto. exact Eb. }
      { now rewrite map_length. }
      change (length (@nil Z)) with 0. unfold set_branch, del_branch in ER |- *. cbn [hl hb hnx hpv hfresh] in ER |- *. rewrite ER. cbn [bind]. eexists _, _. split; [reflexivity|].
      change (GB c kc cc :: GB n kn cn :: CB0) with ([] ++ [GB c kc cc; GB n kn cn] ++ CB0) in *.
      eapply (@ufb_merge h A i b2 [] y b0 [] c kc cc n kn cn CB0 B lo hi d _ (del_branch (set_branch h c b') n)); eauto.
      * cbn [hbd hd map] in KC. apply kids_cut; auto.
      * rewrite app_length. cbn [length]. lia.
      * eapply (@bmerge_upd h); eauto; cbn [del_branch set_branch hb].
        -- rewrite upd_other by auto. now rewrite upd_same.
        -- intros j J1 J2. now rewrite !upd_other by auto.
        -- rewrite map_app. exact RM.
  - rewrite app_length in LA. cbn [length] in LA.
    destruct (rev_case CA) as [->|(CA0 & g & ->)]; [cbn [length] in LA; lia|].
    rewrite app_length in LA. cbn [length] in LA. assert (LA0 : length CA0 = length a0) by lia.
    apply kl_snoc in KL; [|exact LA0]. destruct KL as (KL & Bx & Wg).
    apply wfS_branch in Wg as (p & kp & cp & -> & Cp & Kp). rewrite lb_snoc in *.
    assert (I2 : inv h A (CA0 ++ [GB p kp cp; GB c kc cc] ++ CB) B).
    { rewrite <- app_assoc in I. exact I. }
    pose proof (inv_sub I2) as IP.
    destruct (inv_bpair IP) as (Hne & _ & _ & _ & _ & (pb & Epb & Rpb) & _).
    assert (Hpi : p <> i).
    { intros ->. apply Hni. rewrite !bids_app, !bids_GB. rewrite !in_app_iff. cbn [In]. tauto. }
    assert (Hb2 : brep N b (a0 ++ x :: bb) (map (@gid V) (CA0 ++ [GB p kp cp; GB c kc cc] ++ CB))).
    { rewrite <- !app_assoc in Hb. exact Hb. }
    assert (KK : kids (wf (mn minL minB d) d) (lb lo a0) (kp ++ x :: kc) (cp ++ cc) (hbd bb hi)).
    { apply kids_cut; auto. apply (kids_length Kp). }
    pose proof (kids_length Kp) as LCp.
    assert (LCp' : length (map (@gid V) cp) = S (length kp)) by now rewrite map_length.
    replace (0 <? length (a0 ++ [x])) with true by (symmetry; apply Nat.ltb_lt; rewrite app_length; cbn [length]; lia).
    replace (length (a0 ++ [x]) - 1) with (length a0) by (rewrite app_length; cbn [length]; lia).
    assert (EA : aget (bc b) (length a0) = Ok p).
    { eapply brep_kid; [exact Hb2|]. rewrite map_app. apply nth_error_mid. rewrite map_length. lia. }
    rewrite EA. cbn [bind andb]. unfold getb at 1. rewrite Epb. cbn [of_opt bind].
    assert (Hpbn : bn pb = length kp) by apply Rpb. rewrite Hpbn.
    destruct (Nat.ltb_spec ((N + 1) / 2) (length kp)) as [HG|HG].
    + destruct (@balance_branch_left_ok L N h p c i pb cb b kp (map (@gid V) cp) kc (map (@gid V) cc) a0 x bb
                (map (@gid V) (CA0 ++ [GB p kp cp; GB c kc cc] ++ CB)))
        as (d1 & s & d2 & e1 & e2 & db' & rb' & pb' & EBal & Ekp & Ecp & Le1 & Ld1 & R1 & R2 & R3); auto; try lia.
      { intros y z Hy Hz. destruct (kids_sorted Kp) as [_ Fp]. destruct (kids_sorted KC) as [_ Fc].
        rewrite Forall_forall in Fp, Fc. apply Fp in Hy as [_ Hy]. apply Fc in Hz as [Hz _]. simpl in *. lia. }
      apply map_eq_app in Ecp as (f1 & f2 & -> & <- & <-). rewrite map_length in Le1.
      rewrite EBal. cbn [bind]. eexists _, _. split; [reflexivity|].
      rewrite <- !app_assoc. cbn [app].
      pose proof (f_equal (@length _) Ekp) as Hlen. rewrite app_length in Hlen. cbn [length] in Hlen.
      eapply (@ufb_bal h A i pb' a0 x bb CA0 p kp (f1 ++ f2) c kc cc CB B lo hi d _ (set_branch (set_branch h c rb') p db') _ s
                d1 f1 (d2 ++ x :: kc) (f2 ++ cc)); eauto.
      * subst kp. rewrite <- app_assoc. reflexivity.
      * rewrite app_assoc. reflexivity.
      * lia.
      * rewrite app_length. cbn [length]. lia.
      * eapply (@bpair_upd h); eauto; cbn [set_branch hb].
        -- rewrite <- app_assoc. reflexivity.
        -- now rewrite upd_same.
        -- rewrite upd_other by auto. now rewrite upd_same.
        -- intros j J1 J2. now rewrite !upd_other by auto.
        -- rewrite map_app. exact R2.
    + assert (ML : length kp + 1 + length kc <= N -> exists h' c',
         (do k <- aget (bk b) (length a0);
          do h1 <- merge_branch h p k c; do h2 <- free_branch h1 c;
          do h3 <- remove_branch_child h2 i (length a0) (length (a0 ++ [x])); Ok (h3, p)) = Ok (h', c') /\
          ufb_post h A i ((a0 ++ [x]) ++ bb) ((CA0 ++ [GB p kp cp]) ++ [GB c kc cc] ++ CB) B lo hi d h' c').
      { intros HFT. rewrite (@brep_key N b (a0 ++ x :: bb) _ (length a0) x Hb2) by now apply nth_error_mid. cbn [bind].
        destruct (@merge_branch_ok L N h p c pb cb kp (map (@gid V) cp) kc (map (@gid V) cc) x) as (b' & EM & RM); auto.
        rewrite EM. cbn [bind]. unfold free_branch, getb at 1. cbn [set_branch hb]. rewrite upd_other by auto.
        rewrite Ecb. cbn [of_opt bind].
        destruct (@remove_branch_child_ok L N (del_branch (set_branch h p b') c) i b a0 x bb (map (@gid V) CA0) p c (map (@gid V) CB) (length a0) (length (a0 ++ [x])))
          as (b2 & ER & R2); auto.
        { cbn [del_branch set_branch hb]. rewrite !upd_other by auto. exact Eb. }
        { rewrite !map_app in Hb2. exact Hb2. }
        { now rewrite map_length. }
        { now rewrite map_length. }
        { rewrite app_length. cbn [length]. destruct (Nat.eqb_spec (length a0 + 1) 0); lia. }
        unfold set_branch, del_branch in ER |- *. cbn [hl hb hnx hpv hfresh] in ER |- *. rewrite ER. cbn [bind]. eexists _, _. split; [reflexivity|].
        rewrite <- !app_assoc. cbn [app].
        eapply (@ufb_merge h A i b2 a0 x bb CA0 p kp cp c kc cc CB B lo hi d _ (del_branch (set_branch h p b') c)); eauto.
        - rewrite app_length. cbn [length]. lia.
        - eapply (@bmerge_upd h); eauto; cbn [del_branch set_branch hb].
          + rewrite upd_other by auto. now rewrite upd_same.
          + intros j J1 J2. now rewrite !upd_other by auto.
          + rewrite map_app. exact RM.
        - rewrite !map_app. exact R2. }
      assert (H0p : 0 <? length kp = true) by (apply Nat.ltb_lt; lia). rewrite H0p.
      assert (HFT : (forall n nb, length (a0 ++ [x]) < bn b -> aget (bc b) (length (a0 ++ [x]) + 1) = Ok n -> hb h n = Some nb -> bn nb <= (N + 1) / 2) ->
        length kp + 1 + length kc <= N).
      { intros HX. destruct HF as [HF|(r & HF)]; [lia|]. unfold room, getb in HF. rewrite Eb, Ecb in HF. cbn [of_opt bind] in HF.
        replace (0 <? length (a0 ++ [x])) with true in HF by (symmetry; apply Nat.ltb_lt; rewrite app_length; cbn [length]; lia).
        replace (length (a0 ++ [x]) - 1) with (length a0) in HF by (rewrite app_length; cbn [length]; lia).
        rewrite EA in HF. cbn [bind] in HF. rewrite Epb in HF. cbn [of_opt bind] in HF. rewrite Hpbn in HF.
        assert (Hcbn : bn cb = length kc) by apply Rcb. rewrite Hcbn, H0p in HF.
        apply bind_inv in HF as (nn & En & HF). injection HF as HF.
        apply orb_prop in HF as [HF|HF]; [apply orb_prop in HF as [HF|HF]; apply Nat.ltb_lt in HF; [lia|]|].
        - exfalso. destruct (Nat.ltb_spec (length (a0 ++ [x])) (bn b)) as [HZ|HZ]; [|injection En as <-; lia].
          apply bind_inv in En as (n & En1 & En). apply bind_inv in En as (nb & En2 & En). injection En as <-.
          unfold of_opt in En2. destruct (hb h n) as [nb'|] eqn:Enb'; [|discriminate]. injection En2 as ->. specialize (HX n nb HZ En1 Enb'). lia.
        - apply andb_prop in HF as [_ HF]. apply Nat.leb_le in HF. lia. }
      destruct bb as [|y b0].
      * rewrite app_nil_r in *. rewrite Nat.ltb_irrefl. cbn [bind andb]. apply ML, HFT. intros n nb HZ. lia.
      * destruct (NX y b0 eq_refl) as (n & kn & cn & CB0 & nb & -> & LB0 & Cn & Kn & KR' & EA2 & Enb & Rnb & Hnc & Hnin & IP').
        replace (length (a0 ++ [x]) <? length ((a0 ++ [x]) ++ y :: b0)) with true
          by (symmetry; apply Nat.ltb_lt; rewrite !app_length; cbn [length]; lia).
        cbn [andb]. rewrite EA2. cbn [bind]. unfold getb at 1. rewrite Enb. cbn [of_opt bind].
        assert (Hnbn : bn nb = length kn) by apply Rnb. rewrite Hnbn.
        destruct (Nat.ltb_spec ((N + 1) / 2) (length kn)) as [HG2|HG2].
        -- destruct (RB y b0 eq_refl n kn cn CB0 nb eq_refl Enb Rnb HG2) as (h' & -> & FIN).
           cbn [bind]. eexists _, _. split; [reflexivity|]. exact FIN.
        -- apply ML, HFT. intros n' nb' _ EX EY. assert (n' = n) as -> by congruence. assert (nb' = nb) as -> by congruence. lia.
Qed.

(** ** Deletion below the root *)
Lemma upd_drop h A i ks cs B h' gs' : upd_ok h A cs B h' gs' -> upd_ok h A [GB i ks cs] B h' gs'.
Proof.
  intros [J [F1 F2 F3] U1 U2 U3]. constructor; auto.
  - constructor; auto.
    + intros j Hj. rewrite lids_GB. auto.
    + intros j Hj Hn. rewrite bids_GB in Hn. cbn [In] in Hn. apply F3; tauto.
  - intros j. rewrite lids_GB. auto.
  - intros j. rewrite bids_GB. intros Hj. destruct (U2 j Hj); cbn [In]; auto.
  - now rewrite lids_GB.
Qed.

(** Dropping a node with a single child that was rewritten on top. *)
Lemma upd_drop_set h A i ks cs B h' gs' b : ~ In i (bids cs) -> i < hfresh h -> upd_ok h A cs B h' gs' ->
  upd_ok h A [GB i ks cs] B (set_branch h' i b) gs'.
Proof.
  intros Hni Hi U. destruct (upd_drop i ks U) as [J [F1 F2 F3] U1 U2 U3].
  assert (Hni1 : ~ In i (bids gs')).
  { intros Hc. destruct (uo_b U Hc); [tauto|lia]. }
  constructor; auto.
  - now apply inv_set_branch.
  - constructor; cbn [set_branch hfresh hl hb]; auto.
    intros j Hj Hn. rewrite upd_other; auto. intros ->. apply Hn. rewrite bids_GB. cbn [In]. auto.
Qed.

Definition er_same (t : tree L) A i (ks : list Z) (cs : list gt) B lo hi d (k : Z) (t' : tree L) : Prop :=
  troot t' = troot t /\ tdepth t' = tdepth t /\
  exists ks' cs', upd_ok (th t) A [GB i ks cs] B (th t') [GB i ks' cs'] /\
    ents cs' = del k (ents cs) /\ kids (wf (mn minL minB d) d) lo ks' cs' hi /\
    length ks <= S (length ks') /\ 1 <= length ks' <= length ks.
Definition er_root (t : tree L) A i (ks : list Z) (cs : list gt) B lo hi d (k : Z) (t' : tree L) : Prop :=
  length ks = 1 /\ S d = tdepth t /\ tdepth t' = d /\
  exists g' : gt, gid g' = troot t' /\ upd_ok (th t) A [GB i ks cs] B (th t') [g'] /\
    wf (mn minL minB d) d lo hi g' /\ ents [g'] = del k (ents cs).

Lemma erase_branch_ok r d : forall t A i ks cs B m lo hi k,
  wf m (S d) lo hi (GB i ks cs) -> inb lo hi k -> inv (th t) A [GB i ks cs] B ->
  (forall j l es, find_leaf O (th t) (S d) i k = Ok j -> hl (th t) j = Some l -> lrep l es -> sorted es -> get k es = get k (ents cs) ->
    exists l', lo_erase O l k = Ok (r, l') /\ lhint l' (del k es) k) ->
  1 <= length ks -> S d <= tdepth t ->
  (2 * ((N + 1) / 2) <= N /\ 2 <= minB /\ (2 <= length ks \/ S d = tdepth t)) \/ path_ok N M O t (S d) i k = Ok true \/ tdepth t <= 1 ->
  (all_good \/ leaf_guard M O guard (th t) (S d) i k = Ok true) ->
  exists t', erase_branch N M O t (S d) i k = Ok (t', r) /\
    (er_same t A i ks cs B lo hi d k t' \/ er_root t A i ks cs B lo hi d k t').
Proof.
  induction d as [|d IH]; intros t A i ks cs B m lo hi k HW Hk HI HG H1 HD HP HR0.
  - (* children are leaves *)
    cbn [BTreeGhost.wf] in HW. destruct HW as [HC HK]. cbn [mn] in HK. pose proof HI as HI0.
    apply inv_GB in HI as (HI & Hfi & Hni & (b & Eb & Hb)). cbn [fst snd] in *.
    destruct (route HK Hk) as (a & bb & CA & c & CB & -> & -> & LA & LB & Ha & Hbb & KL & Rc & Bc & KR & Hkc).
    destruct (kids_sorted HK) as [HS _].
    destruct (wf0_leaf Rc) as (j & es & -> & Ss & Fs & Cs).
    change (CA ++ GL j es :: CB) with (CA ++ [GL j es] ++ CB) in *.
    pose proof (inv_sub HI) as HIc.
    destruct (ctx_ents (@wf_okc V N M minL minB minL 0) KL KR Hkc) as [HA HBB].
    destruct (inv_GL HIc) as (l & El & Hl & _).
    assert (EG : get k (ents (CA ++ [GL j es] ++ CB)) = get k es).
    { rewrite !ents_app, ents_GL. rewrite get_app_lt by assumption. now rewrite get_app_gt. }
    assert (EF : find_leaf O (th t) 1 i k = Ok j).
    { cbn [find_leaf]. unfold getb at 1. rewrite Eb. cbn [of_opt bind].
      rewrite (@bpos_ok L V N M O lrep minL kok LL b a bb _ k Hb HS Ha Hbb). cbn [bind].
      rewrite (@kid_at V N b _ CA (GL j es) CB (length a) Hb) by auto. reflexivity. }
    destruct (HG j l es EF El Hl Ss (eq_sym EG)) as (l' & EE & Hh).
    pose proof (law_hint EL Hh) as Hl'.
    assert (HR1 : length (del k es) < (M + 1) / 2 -> good (set_leaf (th t) j l') i (length a) j).
    { intros Hlt. destruct HR0 as [HR0|HR0]; [apply HR0|]. apply Hg. cbn [leaf_guard] in HR0. unfold getb in HR0. rewrite Eb in HR0.
      cbn [of_opt bind] in HR0.
      rewrite (@bpos_ok L V N M O lrep minL kok LL b a bb _ k Hb HS Ha Hbb) in HR0. cbn [bind] in HR0.
      rewrite (@kid_at V N b _ CA (GL j es) CB (length a) Hb) in HR0 by auto. cbn [bind gid] in HR0.
      unfold erase_leaf, getl at 1 in HR0. rewrite El in HR0. cbn [of_opt bind] in HR0. rewrite EE in HR0. cbn [bind fst snd] in HR0.
      unfold getl in HR0. cbn [set_leaf hl] in HR0. rewrite upd_same' in HR0. cbn [of_opt bind] in HR0.
      rewrite (law_count LL Hl') in HR0. destruct (Nat.ltb_spec (length (del k es)) ((M + 1) / 2)); [exact HR0|lia]. }
    assert (ED : ents (CA ++ [GL j (del k es)] ++ CB) = del k (ents (CA ++ [GL j es] ++ CB))).
    { rewrite !ents_app, !ents_GL. rewrite del_app_lt by assumption. now rewrite del_app_gt. }
    pose proof (set_leaf_upd HIc Hl') as U0. pose proof (upd_ctx HI U0) as UC.
    assert (Sd : sorted (del k es)) by now apply sorted_del.
    assert (Fd : Forall (inb (lb lo a) (hbd bb hi)) (keys (del k es))).
    { rewrite Forall_forall in *. intros z Hz. apply Fs. eapply del_in_keys; eauto. }
    pose proof (length_del_le k Ss) as Ld.
    cbn [erase_branch]. unfold getb at 1. rewrite Eb. cbn [of_opt bind].
    rewrite (@bpos_ok L V N M O lrep minL kok LL b a bb _ k Hb HS Ha Hbb). cbn [bind].
    rewrite (@kid_at V N b _ CA (GL j es) CB (length a) Hb) by auto. cbn [bind gid].
    unfold erase_leaf, getl at 1. rewrite El. cbn [of_opt bind]. rewrite EE. cbn [bind fst snd].
    unfold getl. cbn [set_leaf hl]. rewrite upd_same'. cbn [of_opt bind]. rewrite (law_count LL Hl').
    set (t1 := Tree (set_leaf (th t) j l') (troot t) (tdepth t)).
    assert (HP1 : length (del k es) < (M + 1) / 2 -> 2 <= length (a ++ bb) \/ 1 = tdepth t \/
      lend_leaf M O (th t1) i (length a) j = Ok true).
    { intros Hlt. destruct HP as [HP|[HP|HP]]; [tauto| |lia]. cbn [path_ok] in HP. unfold getb in HP. rewrite Eb in HP.
      cbn [of_opt bind] in HP.
      rewrite (@bpos_ok L V N M O lrep minL kok LL b a bb _ k Hb HS Ha Hbb) in HP. cbn [bind] in HP.
      rewrite (@kid_at V N b _ CA (GL j es) CB (length a) Hb) in HP by auto. cbn [bind gid] in HP.
      unfold erase_leaf, getl at 1 in HP. rewrite El in HP. cbn [of_opt bind] in HP. rewrite EE in HP. cbn [bind fst snd] in HP.
      unfold getl in HP. cbn [set_leaf hl] in HP. rewrite upd_same' in HP. cbn [of_opt bind] in HP.
      rewrite (law_count LL Hl') in HP. destruct (Nat.ltb_spec (length (del k es)) ((M + 1) / 2)); [|lia].
      apply bind_inv in HP as (x & Ex & HP). injection HP as HP. apply orb_prop in HP as [HP|HP]; [apply orb_prop in HP as [->|HP]|].
      - right. right. exact Ex.
      - left. apply Nat.ltb_lt in HP. assert (bn b = length (a ++ bb)) by apply Hb. lia.
      - right. left. destruct (tdepth t) as [|[|]]; [discriminate|reflexivity|discriminate]. }
    destruct (Nat.ltb_spec (length (del k es)) ((M + 1) / 2)) as [HU|HU].
    + destruct (@leaf_uf t1 A i b a bb CA j (del k es) CB B lo hi k l') as (t' & EU & HR); auto.
      * exact (uo_inv UC).
      * rewrite map_app in *. exact Hb.
      * lia.
      * unfold t1. cbn [th set_leaf hl]. now rewrite upd_same'.
      * fold t1. rewrite EU. cbn [bind]. eexists. split; [reflexivity|]. destruct HR as [HR|HR].
        -- left. destruct HR as (R1 & R2 & h2 & b' & ks' & cs' & Eth & U & Rb & KK & EN & Hlen & Hge).
           unfold er_same. splits; auto. exists ks', cs'. splits; auto; try lia.
           ++ rewrite Eth. exact (upd_node HI0 (upd_trans UC U) eq_refl Rb).
           ++ rewrite EN. exact ED.
        -- right. destruct HR as (R1 & R2 & g' & Eg & U & Wg & EN).
           unfold er_root. unfold t1 in R2. cbn [tdepth] in R2.
           assert (HP2 : 1 = tdepth t).
           { destruct (HP1 HU) as [HX|[HX|HX]]; [lia|exact HX|]. apply (lend_leaf_keeps HX) in EU. unfold t1 in EU. cbn [tdepth] in EU. lia. }
           splits; auto; try lia.
           exists g'. splits; auto.
           ++ apply upd_drop. eapply upd_trans; [exact UC|exact U].
           ++ rewrite EN. exact ED.
    + eexists. split; [reflexivity|]. left. unfold er_same, t1. cbn [th troot tdepth]. splits; auto.
      exists (a ++ bb), (CA ++ [GL j (del k es)] ++ CB). splits; auto; try lia.
      * eapply upd_node_same; eauto. rewrite !map_app. reflexivity.
      * pose proof (@kids_ctx _ (wf minL 0) a CA bb CB lo hi [] [GL j (del k es)] LA LB) as EK. cbn [app] in EK.
        apply EK. splits; auto. cbn [kids BTreeGhost.wf]. splits; auto; lia.
  - (* children are branch nodes *)
    cbn [BTreeGhost.wf] in HW. destruct HW as [HC HK]. cbn [mn] in HK. pose proof HI as HI0.
    apply inv_GB in HI as (HI & Hfi & Hni & (b & Eb & Hb)). cbn [fst snd] in *.
    destruct (route HK Hk) as (a & bb & CA & c & CB & -> & -> & LA & LB & Ha & Hbb & KL & Rc & Bc & KR & Hkc).
    destruct (kids_sorted HK) as [HS _].
    destruct (wfS_branch Rc) as (j & kc & cc & -> & Cc & Kc).
    change (CA ++ GB j kc cc :: CB) with (CA ++ [GB j kc cc] ++ CB) in *.
    pose proof (inv_sub HI) as HIc.
    destruct (ctx_ents (@wf_okc V N M minL minB minB (S d)) KL KR Hkc) as [HA HBB].
    assert (EG : get k (ents (CA ++ [GB j kc cc] ++ CB)) = get k (ents cc)).
    { rewrite !ents_app, ents_GB. rewrite get_app_lt by assumption. now rewrite get_app_gt. }
    assert (EF : find_leaf O (th t) (S (S d)) i k = find_leaf O (th t) (S d) j k).
    { cbn [find_leaf]. unfold getb at 1. rewrite Eb. cbn [of_opt bind].
      rewrite (@bpos_ok L V N M O lrep minL kok LL b a bb _ k Hb HS Ha Hbb). cbn [bind].
      rewrite (@kid_at V N b _ CA (GB j kc cc) CB (length a) Hb) by auto. reflexivity. }
    rewrite EF, EG in HG.
    assert (HR1 : all_good \/ leaf_guard M O guard (th t) (S d) j k = Ok true).
    { destruct HR0 as [HR0|HR0]; [now left|]. right.
      change (leaf_guard M O guard (th t) (S (S d)) i k) with
        (do b <- getb (th t) i; do pos <- lo_bpos O (bk b) (bn b) k; do c <- aget (bc b) pos;
         leaf_guard M O guard (th t) (S d) c k) in HR0.
      unfold getb at 1 in HR0. rewrite Eb in HR0. cbn [of_opt bind] in HR0.
      rewrite (@bpos_ok L V N M O lrep minL kok LL b a bb _ k Hb HS Ha Hbb) in HR0. cbn [bind] in HR0.
      rewrite (@kid_at V N b _ CA (GB j kc cc) CB (length a) Hb) in HR0 by auto. exact HR0. }
    assert (HP1 : (2 * ((N + 1) / 2) <= N /\ 2 <= minB /\ (2 <= length kc \/ S d = tdepth t)) \/ path_ok N M O t (S d) j k = Ok true \/ tdepth t <= 1).
    { destruct HP as [HP|[HP|HP]]; [left; lia| |lia]. right. left. rewrite path_ok_2 in HP. unfold getb at 1 in HP. rewrite Eb in HP. cbn [of_opt bind] in HP.
      rewrite (@bpos_ok L V N M O lrep minL kok LL b a bb _ k Hb HS Ha Hbb) in HP. cbn [bind] in HP.
      rewrite (@kid_at V N b _ CA (GB j kc cc) CB (length a) Hb) in HP by auto. cbn [bind gid] in HP.
      apply bind_inv in HP as ([|] & Ex & HP); [exact Ex|discriminate]. }
    destruct (IH t _ j kc cc _ minB _ _ k Rc Hkc HIc HG ltac:(lia) ltac:(lia) HP1 HR1) as (t1 & EE & [HR|HR]).
    2:{ destruct HR as (_ & HR & _). lia. }
    destruct HR as (R1 & R2 & kc' & cc' & U0 & EN & KK & Hlen & Hge).
    pose proof (upd_ctx HI U0) as UC.
    assert (ED : ents (CA ++ [GB j kc' cc'] ++ CB) = del k (ents (CA ++ [GB j kc cc] ++ CB))).
    { rewrite !ents_app, !ents_GB. rewrite EN. rewrite del_app_lt by assumption. now rewrite del_app_gt. }
    assert (Eb1 : hb (th t1) i = Some b) by (rewrite (fr_b (uo_fr UC)); auto).
    assert (Ecb : exists cb, hb (th t1) j = Some cb /\ bn cb = length kc').
    { pose proof (uo_inv U0) as J. apply inv_GB in J as (_ & _ & _ & (cb & E & R)). exists cb. split; auto. apply R. }
    destruct Ecb as (cb & Ecb & Ncb).
    assert (Hni1 : ~ In i (bids (CA ++ [GB j kc' cc'] ++ CB))).
    { intros Hc. destruct (uo_b UC Hc); [tauto|lia]. }
    change (erase_branch N M O t (S (S d)) i k) with
      (do b <- getb (th t) i;
       do pos <- lo_bpos O (bk b) (bn b) k;
       do c <- aget (bc b) pos;
       do r <- erase_branch N M O t (S d) c k;
       let '(t1, deleted) := r in
       do b1 <- getb (th t1) i;
       do pos1 <- lo_bpos O (bk b1) (bn b1) k;
       do cb <- getb (th t1) c;
       if bn cb <? (N + 1) / 2 then
         do r2 <- underflow_branch N (th t1) i pos1 c;
         let '(h2, c') := r2 in
         do b2 <- getb h2 i;
         if (S (S d) =? tdepth t1) && (bn b2 =? 0) then
           Ok (Tree h2 c' (tdepth t1 - 1), deleted)
         else Ok (Tree h2 (troot t1) (tdepth t1), deleted)
       else Ok (t1, deleted)).
    unfold getb at 1. rewrite Eb. cbn [of_opt bind].
    rewrite (@bpos_ok L V N M O lrep minL kok LL b a bb _ k Hb HS Ha Hbb). cbn [bind].
    rewrite (@kid_at V N b _ CA (GB j kc cc) CB (length a) Hb) by auto. cbn [bind gid].
    rewrite EE. cbn [bind]. unfold getb at 1. rewrite Eb1. cbn [of_opt bind].
    rewrite (@bpos_ok L V N M O lrep minL kok LL b a bb _ k Hb HS Ha Hbb). cbn [bind].
    unfold getb at 1. rewrite Ecb. cbn [of_opt bind]. rewrite Ncb.
    assert (HP2 : length kc' < (N + 1) / 2 -> (2 * ((N + 1) / 2) <= N /\ (2 <= length (a ++ bb) \/ S (S d) = tdepth t)) \/
      room N (th t1) i (length a) j (S (S d) =? tdepth t) = Ok true).
    { intros Hlt. destruct HP as [HP|[HP|HP]]; [left; tauto| |lia]. right. rewrite path_ok_2 in HP. unfold getb at 1 in HP. rewrite Eb in HP. cbn [of_opt bind] in HP.
      rewrite (@bpos_ok L V N M O lrep minL kok LL b a bb _ k Hb HS Ha Hbb) in HP. cbn [bind] in HP.
      rewrite (@kid_at V N b _ CA (GB j kc cc) CB (length a) Hb) in HP by auto. cbn [bind gid] in HP.
      apply bind_inv in HP as ([|] & _ & HP); [|discriminate]. rewrite EE in HP. cbn [bind fst] in HP.
      unfold getb at 1 in HP. rewrite Ecb in HP. cbn [of_opt bind] in HP. rewrite Ncb in HP.
      destruct (Nat.ltb_spec (length kc') ((N + 1) / 2)); [exact HP|lia]. }
    destruct (Nat.ltb_spec (length kc') ((N + 1) / 2)) as [HU|HU].
    + specialize (HP2 HU). destruct (@branch_uf (th t1) A i b a bb CA j kc' cc' CB B lo hi d) as (h' & c' & EU & HR); auto.
      * exact (uo_inv UC).
      * rewrite map_app in *. exact Hb.
      * lia.
      * lia.
      * destruct HP2 as [[HP2 _]|HP2]; [now left|right; eauto].
      * rewrite EU. cbn [bind]. destruct HR as (h2 & b' & ks' & cs' & -> & U & Rb & KK2 & EN2 & Hl1 & Hl2 & Hz).
        unfold getb. cbn [set_branch hb]. rewrite upd_same. cbn [of_opt bind].
        assert (Hbn' : bn b' = length ks') by apply Rb. rewrite Hbn'. rewrite R2.
        pose proof (upd_trans UC U) as UT.
        destruct (Nat.eqb_spec (length ks') 0) as [Hz0|Hz0].
        -- assert (Hks : ks' = []) by (destruct ks'; [auto|discriminate]). destruct (Hz Hks) as (g' & -> & Eg).
           subst ks'. cbn [length] in *.
           assert (Edep : S (S d) = tdepth t).
           { destruct HP2 as [[_ [HX|HX]]|HX]; [lia|exact HX|].
             destruct (room_keeps HX EU) as [HY|[HY|HY]].
             - exfalso. destruct HY as (bx & by' & E1 & E2 & E3). cbn [set_branch hb] in E2. rewrite upd_same in E2. injection E2 as <-.
               assert (bx = b) as -> by congruence. assert (bn b = length (a ++ bb)) by apply Hb. rewrite Hbn' in E3. cbn [length] in E3. lia.
             - destruct HY as (bx & E1 & HY). assert (bx = b) as -> by congruence. assert (bn b = length (a ++ bb)) by apply Hb. lia.
             - now apply Nat.eqb_eq. }
           rewrite <- Edep, Nat.eqb_refl. cbn [andb]. eexists. split; [reflexivity|]. right.
           unfold er_root. cbn [tdepth troot th]. splits; auto; try lia.
           exists g'. splits; auto.
           ++ apply upd_drop_set; auto.
           ++ cbn [kids] in KK2. apply KK2.
           ++ rewrite EN2. exact ED.
        -- rewrite andb_false_r. eexists. split; [reflexivity|]. left.
           unfold er_same. cbn [tdepth troot th]. splits; auto. exists ks', cs'. splits; auto; try lia.
           ++ exact (upd_node HI0 UT eq_refl Rb).
           ++ rewrite EN2. exact ED.
    + eexists. split; [reflexivity|]. left. unfold er_same. splits; auto.
      exists (a ++ bb), (CA ++ [GB j kc' cc'] ++ CB). splits; auto; try lia.
      * eapply upd_node_same; eauto. rewrite !map_app. reflexivity.
      * pose proof (@kids_ctx _ (wf minB (S d)) a CA bb CB lo hi [] [GB j kc' cc'] LA LB) as EK. cbn [app] in EK.
        apply EK. splits; auto. cbn [kids BTreeGhost.wf]. splits; auto; lia.
Qed.

(** ** The whole tree *)
Notation tinv := (tinv N M lrep minL minB).
Notation tinvf := (tinvf N M lrep minL minB).

Lemma t_erase_genf_w f r t es k : tinvf f t es ->
  (forall j l es', find_leaf O (th t) (tdepth t) (troot t) k = Ok j -> hl (th t) j = Some l -> lrep l es' -> sorted es' -> get k es' = get k es ->
    exists l', lo_erase O l k = Ok (r, l') /\ lhint l' (del k es') k) ->
  (2 * ((N + 1) / 2) <= N /\ 2 <= minB) \/ path_ok N M O t (tdepth t) (troot t) k = Ok true \/ tdepth t <= 1 ->
  (all_good \/ leaf_guard M O guard (th t) (tdepth t) (troot t) k = Ok true) ->
  exists t', t_erase N M O t k = Ok (t', r) /\ tinvf f t' (del k es).
Proof.
  intros (g & Eg & W & I & <- & Hf) HG HP HR0. destruct t as [h x d]. cbn [troot tdepth th] in *. subst x.
  unfold t_erase. cbn [troot tdepth th].
  destruct d as [|d].
  - destruct (wf0_leaf W) as (j & es & -> & Ss & Fs & Cs). rewrite ents_GL in *. cbn [gid] in *.
    destruct (inv_GL I) as (l & El & Hl & _).
    destruct (HG j l es eq_refl El Hl Ss eq_refl) as (l' & EE & Hh). pose proof (law_hint EL Hh) as Hl'.
    unfold erase_leaf, getl. rewrite El. cbn [of_opt bind]. rewrite EE. cbn [bind fst snd].
    eexists. split; [reflexivity|]. exists (GL j (del k es)). cbn [troot tdepth th gid]. splits; auto.
    + cbn [rmin BTreeGhost.wf]. pose proof (length_del_le k Ss) as Ld. splits; auto; try lia.
      * now apply sorted_del.
      * rewrite Forall_forall in *. intros z Hz. apply Fs. eapply del_in_keys; eauto.
    + exact (uo_inv (set_leaf_upd I Hl')).
    + now rewrite ents_GL.
  - destruct (wfS_branch W) as (j & ks & cs & -> & Cs & KK). rewrite ents_GB in *. cbn [gid rmin] in *.
    destruct (@erase_branch_ok r d (Tree h j (S d)) [] j ks cs [] 1 None None k W ltac:(split; exact Logic.I) I HG ltac:(lia)) as (t' & EE & HR).
    { cbn [tdepth]. lia. }
    { cbn [tdepth]. destruct HP as [HP|HP]; [left; tauto|right; exact HP]. }
    { exact HR0. }
    rewrite EE. exists t'. split; auto. destruct HR as [HR|HR].
    + destruct HR as (R1 & R2 & ks' & cs' & U & EN & KK' & Hlen & Hge). cbn [troot tdepth th] in *.
      exists (GB j ks' cs'). rewrite R1, R2, ents_GB. cbn [gid rmin BTreeGhost.wf]. splits; auto; try lia; [exact (uo_inv U)|]. rewrite (uo_hd U). exact Hf.
    + destruct HR as (R1 & R2 & R3 & g' & Eg & U & Wg & EN). cbn [troot tdepth th] in *.
      exists g'. rewrite R3. splits; auto; [|exact (uo_inv U)|now rewrite (uo_hd U)].
      eapply wf_mono; [|exact Wg]. destruct d; cbn [rmin mn]; lia.
Qed.

End Erase.

(** For even [N] from 6 on every path is fine. *)
Section EraseEven.
Variables (L V : Type) (N M : nat) (O : leafops L V).
Variable lrep : L -> list (Z * V) -> Prop.
Variable lhint : L -> list (Z * V) -> Z -> Prop.
Variable side : bool -> L -> L -> Prop.
Variables minL minB : nat.
Variable kok : Z -> Prop.
Hypothesis LL : leaf_laws O M minL kok lrep.
Hypothesis EL : erase_core O M lrep lhint side.
Hypothesis HM : 1 <= M.
Hypothesis HmL : minL <= (M + 1) / 2.
Hypothesis HN : 2 * ((N + 1) / 2) <= N.
Hypothesis HB : minB <= (N + 1) / 2 - 1.
Hypothesis HB2 : 2 <= minB.
Variable guard : heap L -> nat -> nat -> nat -> res bool.
Hypothesis Hg : forall h id pos c, guard h id pos c = Ok true -> good M O side h id pos c.
Notation all_good := (all_good M O side).
Notation tinv := (tinv N M lrep minL minB).
Notation tinvf := (tinvf N M lrep minL minB).

Lemma t_erase_genf f r t es k : tinvf f t es ->
  (forall j l es', find_leaf O (th t) (tdepth t) (troot t) k = Ok j -> hl (th t) j = Some l -> lrep l es' -> sorted es' -> get k es' = get k es ->
    exists l', lo_erase O l k = Ok (r, l') /\ lhint l' (del k es') k) ->
  (all_good \/ leaf_guard M O guard (th t) (tdepth t) (troot t) k = Ok true) ->
  exists t', t_erase N M O t k = Ok (t', r) /\ tinvf f t' (del k es).
Proof. intros I HG HR0. exact (t_erase_genf_w LL EL HM HmL HB ltac:(lia) Hg I HG (or_introl (conj HN HB2)) HR0). Qed.

Lemma t_erase_gen r t es k : tinv t es ->
  (forall j l es', find_leaf O (th t) (tdepth t) (troot t) k = Ok j -> hl (th t) j = Some l -> lrep l es' -> sorted es' -> get k es' = get k es ->
    exists l', lo_erase O l k = Ok (r, l') /\ lhint l' (del k es') k) ->
  (all_good \/ leaf_guard M O guard (th t) (tdepth t) (troot t) k = Ok true) ->
  exists t', t_erase N M O t k = Ok (t', r) /\ tinv t' (del k es).
Proof.
  intros I HG HR0. destruct (tinv_tinvf I) as (f & If). destruct (t_erase_genf If HG HR0) as (t' & E & I').
  exists t'. split; auto. eapply tinvf_tinv; eauto.
Qed.

Lemma t_erase_okg t es k : tinv t es -> get k es <> None ->
  (all_good \/ leaf_guard M O guard (th t) (tdepth t) (troot t) k = Ok true) ->
  exists t', t_erase N M O t k = Ok (t', true) /\ tinv t' (del k es).
Proof. intros I HG HR0. apply t_erase_gen; auto. intros j l es' _ _ Hl _ E. apply (law_erase EL Hl). now rewrite E. Qed.

(** An absent key, when the leaf it belongs to reports it as absent. *)
Lemma t_erase_absentg t es k : tinv t es -> get k es = None ->
  (forall j l es', find_leaf O (th t) (tdepth t) (troot t) k = Ok j -> hl (th t) j = Some l -> lrep l es' -> sorted es' -> get k es' = None ->
    lo_erase O l k = Ok (false, l) /\ lhint l es' k) ->
  (all_good \/ leaf_guard M O guard (th t) (tdepth t) (troot t) k = Ok true) ->
  exists t', t_erase N M O t k = Ok (t', false) /\ tinv t' es.
Proof.
  intros I HG HL HR0. destruct (@t_erase_gen false t es k I) as (t' & E & I').
  - intros j l es' EF El Hl Ss E. rewrite HG in E. destruct (HL j l es' EF El Hl Ss E) as [EE Hh]. exists l. split; [assumption|]. now rewrite (del_none E).
  - exact HR0.
  - exists t'. split; [assumption|]. now rewrite (del_none HG) in I'.
Qed.

End EraseEven.

(** Classes without conditions. *)
Section Free.
Variables (L V : Type) (N M : nat) (O : leafops L V).
Variable lrep : L -> list (Z * V) -> Prop.
Variable lhint : L -> list (Z * V) -> Z -> Prop.
Variables minL minB : nat.
Variable kok : Z -> Prop.
Hypothesis LL : leaf_laws O M minL kok lrep.
Hypothesis EL : erase_laws O M lrep lhint.
Hypothesis HM : 1 <= M.
Hypothesis HmL : minL <= (M + 1) / 2.
Hypothesis HN : 2 * ((N + 1) / 2) <= N.
Hypothesis HB : minB <= (N + 1) / 2 - 1.
Hypothesis HB2 : 2 <= minB.
Notation tinv := (tinv N M lrep minL minB).

Lemma free_good : all_good M O (fun _ _ _ => True).
Proof. intros h id pos c. split; [left; exact (law_free EL)|]. split; auto. Qed.
Let noguard (h : heap L) (i p c : nat) : res bool := UB.
Lemma noguard_ok : forall h i p c, noguard h i p c = Ok true -> good M O (fun _ _ _ => True) h i p c.
Proof. discriminate. Qed.

Lemma t_erase_ok t es k : tinv t es -> get k es <> None ->
  exists t', t_erase N M O t k = Ok (t', true) /\ tinv t' (del k es).
Proof. intros I HG. exact (t_erase_okg LL EL HM HmL HN HB HB2 noguard_ok I HG (or_introl free_good)). Qed.
Lemma t_erase_okf f t es k : tinvf N M lrep minL minB f t es -> get k es <> None ->
  exists t', t_erase N M O t k = Ok (t', true) /\ tinvf N M lrep minL minB f t' (del k es).
Proof.
  intros I HG. refine (t_erase_genf LL EL HM HmL HN HB HB2 noguard_ok I _ (or_introl free_good)).
  intros j l es' _ _ Hl _ E. apply (law_erase EL Hl). now rewrite E.
Qed.
Lemma t_erase_absent t es k : tinv t es -> get k es = None ->
  (forall j l es', find_leaf O (th t) (tdepth t) (troot t) k = Ok j -> hl (th t) j = Some l -> lrep l es' -> sorted es' -> get k es' = None ->
    lo_erase O l k = Ok (false, l) /\ lhint l es' k) ->
  exists t', t_erase N M O t k = Ok (t', false) /\ tinv t' es.
Proof. intros I HG HL. exact (t_erase_absentg LL EL HM HmL HN HB HB2 noguard_ok I HG HL (or_introl free_good)). Qed.
End Free.
