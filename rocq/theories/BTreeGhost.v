(** Ghost trees, their footprints, and what it means for a heap to hold one. *)
From Verif Require Import Base ArrLemmas MapSpec SortedList BTreeModel BTreeLaws BTreeBranch.
Open Scope nat_scope.

(** ** Bounds *)
Definition lob (lo : option Z) (k : Z) := match lo with None => True | Some x => (x <= k)%Z end.
Definition hib (hi : option Z) (k : Z) := match hi with None => True | Some x => (k < x)%Z end.
Definition inb lo hi k := lob lo k /\ hib hi k.
Definition bl (lo hi : option Z) := match lo, hi with Some x, Some y => (x < y)%Z | _, _ => True end.

(** last element of a list, or a default; first element, or a default *)
Definition lb {A} (x : option A) (a : list A) : option A := last (map Some a) x.
Definition hbd {A} (b : list A) (y : option A) : option A := hd y (map Some b).

Lemma lb_nil {A} (x : option A) : lb x [] = x. Proof. reflexivity. Qed.
Lemma lb_snoc {A} (x : option A) a k : lb x (a ++ [k]) = Some k.
Proof. unfold lb. rewrite map_app. simpl. apply last_last. Qed.
Lemma last_cons {A} (l : list A) : forall x d, last (x :: l) d = last l x.
Proof.
  induction l as [|y l IH]; intros x d; [reflexivity|].
  change (last (x :: y :: l) d) with (last (y :: l) d). now rewrite !IH.
Qed.
Lemma lb_cons {A} (x : option A) k a : lb x (k :: a) = lb (Some k) a.
Proof. unfold lb. simpl map. apply last_cons. Qed.
Lemma lb_app {A} (x : option A) a b : lb x (a ++ b) = lb (lb x a) b.
Proof.
  revert x; induction a as [|y a IH]; intros x; [reflexivity|].
  simpl. now rewrite !lb_cons.
Qed.
Lemma hbd_app {A} (a b : list A) y : hbd (a ++ b) y = hbd a (hbd b y).
Proof. destruct a; reflexivity. Qed.

Section Kids.
Variable T : Type.
Variable R : option Z -> option Z -> T -> Prop.

(** [kids lo ks cs hi]: children [cs] separated by [ks], covering [lo, hi). *)
Fixpoint kids (lo : option Z) (ks : list Z) (cs : list T) (hi : option Z) : Prop :=
  match ks, cs with
  | [], [c] => bl lo hi /\ R lo hi c
  | k :: ks', c :: cs' => bl lo (Some k) /\ R lo (Some k) c /\ kids (Some k) ks' cs' hi
  | _, _ => False
  end.
(** left and right contexts of a position *)
Fixpoint kl (lo : option Z) (ks : list Z) (cs : list T) : Prop :=
  match ks, cs with
  | [], [] => True
  | k :: ks', c :: cs' => bl lo (Some k) /\ R lo (Some k) c /\ kl (Some k) ks' cs'
  | _, _ => False
  end.
Fixpoint kr (ks : list Z) (cs : list T) (hi : option Z) : Prop :=
  match ks, cs with
  | [], [] => True
  | k :: ks', c :: cs' => bl (Some k) (hbd ks' hi) /\ R (Some k) (hbd ks' hi) c /\ kr ks' cs' hi
  | _, _ => False
  end.

Lemma kids_length lo ks cs hi : kids lo ks cs hi -> length cs = S (length ks).
Proof.
  revert lo cs; induction ks as [|k ks IH]; intros lo [|c cs]; simpl; try tauto.
  - destruct cs; tauto.
  - intros (_ & _ & H). f_equal. eauto.
Qed.
Lemma kl_length lo ks cs : kl lo ks cs -> length cs = length ks.
Proof.
  revert lo cs; induction ks as [|k ks IH]; intros lo [|c cs]; simpl; try tauto.
  intros (_ & _ & H). f_equal. eauto.
Qed.
Lemma kr_length ks cs hi : kr ks cs hi -> length cs = length ks.
Proof.
  revert cs; induction ks as [|k ks IH]; intros [|c cs]; simpl; try tauto.
  intros (_ & _ & H). f_equal. eauto.
Qed.

Lemma kids_left a CA : length CA = length a -> forall lo ks cs hi,
  kids lo (a ++ ks) (CA ++ cs) hi <-> kl lo a CA /\ kids (lb lo a) ks cs hi.
Proof.
  revert CA; induction a as [|k a IH]; intros [|c CA] HL lo ks cs hi; try discriminate HL.
  - simpl. tauto.
  - simpl in HL. injection HL as HL. simpl app. cbn [kids kl].
    rewrite (IH _ HL (Some k) ks cs hi). rewrite lb_cons. tauto.
Qed.

Lemma kids_right_only k b CB hi : length CB = S (length b) ->
  kids (Some k) b CB hi <-> kr (k :: b) CB hi.
Proof.
  revert k CB; induction b as [|k' b IH]; intros k [|c CB] HL; try discriminate HL; simpl in HL; injection HL as HL.
  - destruct CB; [|discriminate HL]. simpl. tauto.
  - cbn [kids]. rewrite (IH k' CB HL). cbn [kr]. simpl. tauto.
Qed.

Lemma kids_right b CB hi : length CB = length b -> forall ms ds lo,
  kids lo (ms ++ b) (ds ++ CB) hi <-> kids lo ms ds (hbd b hi) /\ kr b CB hi.
Proof.
  intros HL. induction ms as [|m ms IH]; intros [|d ds] lo.
  - simpl. split; [|tauto]. intros H. apply kids_length in H. lia.
  - simpl app. destruct b as [|k b].
    + destruct CB; [|discriminate HL]. rewrite app_nil_r. simpl. tauto.
    + destruct ds as [|d' ds].
      * simpl app. cbn [kids]. rewrite (@kids_right_only k b CB hi) by (simpl in *; lia). simpl hbd. tauto.
      * split.
        -- intros H. apply kids_length in H. simpl in H. rewrite app_length in H. simpl in *. lia.
        -- simpl. tauto.
  - split.
    + intros H. apply kids_length in H. simpl in H. rewrite !app_length in H. lia.
    + simpl. tauto.
  - simpl app. cbn [kids]. rewrite IH. tauto.
Qed.

(** Children at the left and right of a middle piece. *)
Lemma kids_ctx a CA b CB lo hi ms ds : length CA = length a -> length CB = length b ->
  kids lo (a ++ ms ++ b) (CA ++ ds ++ CB) hi <->
  kl lo a CA /\ kids (lb lo a) ms ds (hbd b hi) /\ kr b CB hi.
Proof. intros H1 H2. rewrite kids_left by assumption. rewrite kids_right by assumption. tauto. Qed.

(** Cutting at a separator. *)
Lemma kids_cut lo a k b CA CB hi : length CA = S (length a) ->
  kids lo (a ++ k :: b) (CA ++ CB) hi <-> kids lo a CA (Some k) /\ kids (Some k) b CB hi.
Proof.
  revert lo CA; induction a as [|x a IH]; intros lo [|c CA] HL; try discriminate HL; simpl in HL; injection HL as HL.
  - destruct CA; [|discriminate HL]. simpl. tauto.
  - simpl app. cbn [kids]. rewrite IH by exact HL. tauto.
Qed.

Lemma bl_trans a k b : bl a (Some k) -> bl (Some k) b -> bl a b.
Proof. destruct a, b; simpl; auto; lia. Qed.

Lemma kids_bl lo ks cs hi : kids lo ks cs hi -> bl lo hi.
Proof.
  revert lo cs; induction ks as [|k ks IH]; intros lo [|c cs]; simpl; try tauto.
  - destruct cs; tauto.
  - intros (H & _ & H2). eapply bl_trans; eauto.
Qed.

Lemma kids_sorted lo ks cs hi : kids lo ks cs hi ->
  ssorted ks /\ Forall (fun k => bl lo (Some k) /\ bl (Some k) hi) ks.
Proof.
  revert lo cs; induction ks as [|k ks IH]; intros lo [|c cs]; try (simpl; tauto).
  - intros _. split; constructor.
  - intros (H & _ & H2). pose proof (kids_bl H2) as HB. destruct (IH _ _ H2) as [S F]. split.
    + apply ssorted_cons. split; auto. unfold agt. eapply Forall_impl; [|exact F]. simpl. tauto.
    + constructor; auto. eapply Forall_impl; [|exact F]. simpl. intros x [Hx1 Hx2]. split; auto.
      eapply bl_trans; eauto.
Qed.

Lemma kids_mono lo ks cs hi : kids lo ks cs hi -> forall c, In c cs -> exists x y, bl x y /\ R x y c.
Proof.
  revert lo cs; induction ks as [|k ks IH]; intros lo [|c cs]; simpl; try tauto.
  - destruct cs; [|tauto]. intros [H1 H2] c' [<-|[]]. eauto.
  - intros (H & H1 & H2) c' [<-|Hc]; eauto.
Qed.

End Kids.

Lemma kids_impl T (R R' : option Z -> option Z -> T -> Prop) lo ks cs hi :
  (forall x y c, In c cs -> R x y c -> R' x y c) -> kids R lo ks cs hi -> kids R' lo ks cs hi.
Proof.
  revert lo cs; induction ks as [|k ks IH]; intros lo [|c cs] H; simpl; try tauto.
  - destruct cs; [|tauto]. intros [H1 H2]. split; auto. apply H; simpl; auto.
  - intros (H1 & H2 & H3). splits; auto; [apply H; simpl; auto|]. apply IH; auto. intros; apply H; simpl; auto.
Qed.

Lemma inb_ctx lo hi a b k : inb lo hi k -> ale k a -> agt k b -> inb (lb lo a) (hbd b hi) k.
Proof.
  intros [H1 H2] Ha Hb. split.
  - destruct a as [|x a] using rev_ind; [exact H1|]. rewrite lb_snoc. simpl.
    rewrite ale_in in Ha. apply Ha. apply in_or_app; simpl; auto.
  - destruct b as [|x b]; [exact H2|]. simpl. rewrite agt_in in Hb. apply Hb; simpl; auto.
Qed.

(** ** Ghost trees *)
Section Ghost.
Variables (L V : Type) (N M : nat) (O : leafops L V).
Variable lrep : L -> list (Z * V) -> Prop.
Notation hp := (heap L).

Inductive gt := GL (i : nat) (es : list (Z * V)) | GB (i : nat) (ks : list Z) (cs : list gt).
Definition gid (g : gt) := match g with GL i _ => i | GB i _ _ => i end.

Fixpoint leaves (g : gt) : list (nat * list (Z * V)) :=
  match g with GL i es => [(i, es)] | GB _ _ cs => flat_map leaves cs end.
Fixpoint nodes (g : gt) : list (nat * (list Z * list nat)) :=
  match g with GL _ _ => [] | GB i ks cs => (i, (ks, map gid cs)) :: flat_map nodes cs end.
Definition lvs (gs : list gt) := flat_map leaves gs.
Definition nds (gs : list gt) := flat_map nodes gs.
Definition lids (gs : list gt) := map fst (lvs gs).
Definition bids (gs : list gt) := map fst (nds gs).
Definition ents (gs : list gt) : list (Z * V) := flat_map snd (lvs gs).

Lemma lvs_app a b : lvs (a ++ b) = lvs a ++ lvs b. Proof. apply flat_map_app. Qed.
Lemma nds_app a b : nds (a ++ b) = nds a ++ nds b. Proof. apply flat_map_app. Qed.
Lemma lids_app a b : lids (a ++ b) = lids a ++ lids b.
Proof. unfold lids. now rewrite lvs_app, map_app. Qed.
Lemma bids_app a b : bids (a ++ b) = bids a ++ bids b.
Proof. unfold bids. now rewrite nds_app, map_app. Qed.
Lemma ents_app a b : ents (a ++ b) = ents a ++ ents b.
Proof. unfold ents. now rewrite lvs_app, flat_map_app. Qed.
Lemma lvs_GB i ks cs : lvs [GB i ks cs] = lvs cs.
Proof. unfold lvs. simpl. now rewrite app_nil_r. Qed.
Lemma nds_GB i ks cs : nds [GB i ks cs] = (i, (ks, map gid cs)) :: nds cs.
Proof. unfold nds. simpl. now rewrite app_nil_r. Qed.
Lemma lids_GB i ks cs : lids [GB i ks cs] = lids cs.
Proof. unfold lids. now rewrite lvs_GB. Qed.
Lemma ents_GB i ks cs : ents [GB i ks cs] = ents cs.
Proof. unfold ents. now rewrite lvs_GB. Qed.
Lemma bids_GB i ks cs : bids [GB i ks cs] = i :: bids cs.
Proof. unfold bids. now rewrite nds_GB. Qed.
Lemma ents_GL i es : ents [GL i es] = es.
Proof. unfold ents, lvs. simpl. now rewrite !app_nil_r. Qed.

(** ** The heap holds a forest *)
Definition lok (h : hp) (p : nat * list (Z * V)) := exists l, hl h (fst p) = Some l /\ lrep l (snd p).
Definition bok (h : hp) (p : nat * (list Z * list nat)) :=
  exists b, hb h (fst p) = Some b /\ brep N b (fst (snd p)) (snd (snd p)).

(** leaf ids [ids] are doubly linked, preceded by [p] and followed by [n] *)
Fixpoint seg (h : hp) (p : option nat) (ids : list nat) (n : option nat) : Prop :=
  match ids with
  | [] => True
  | i :: r => hpv h i = p /\ hnx h i = hbd r n /\ seg h (Some i) r n
  end.

Lemma seg_app h p a b n : seg h p (a ++ b) n <-> seg h p a (hbd b n) /\ seg h (lb p a) b n.
Proof.
  revert p; induction a as [|i a IH]; intros p; simpl; [tauto|].
  rewrite IH, hbd_app, lb_cons. tauto.
Qed.

Lemma seg_frame h h' p ids n :
  (forall i, In i ids -> hpv h' i = hpv h i /\ hnx h' i = hnx h i) -> seg h p ids n -> seg h' p ids n.
Proof.
  revert p; induction ids as [|i r IH]; intros p H; simpl; [tauto|]. intros (H1 & H2 & H3).
  destruct (H i) as [-> ->]; [simpl; auto|]. splits; auto. apply IH; auto. intros; apply H; simpl; auto.
Qed.

Definition live (h : hp) (i : nat) := exists l, hl h i = Some l.

(** The forest [gs] is held by [h]; the leaf chain is [A], then the leaves of [gs], then [B]. *)
Record inv (h : hp) (A : list nat) (gs : list gt) (B : list nat) : Prop := Inv {
  inv_l : Forall (lok h) (lvs gs);
  inv_b : Forall (bok h) (nds gs);
  inv_nd : NoDup (A ++ lids gs ++ B);
  inv_ndb : NoDup (bids gs);
  inv_lt : forall i, In i (A ++ lids gs ++ B) -> i < hfresh h;
  inv_ltb : forall i, In i (bids gs) -> i < hfresh h;
  inv_liveA : forall i, In i (A ++ B) -> live h i;
  inv_seg : seg h None (A ++ lids gs ++ B) None
}.

Record frame (h h' : hp) (li bi : list nat) : Prop := Frame {
  fr_fresh : hfresh h <= hfresh h';
  fr_l : forall i, i < hfresh h -> ~ In i li -> hl h' i = hl h i;
  fr_b : forall i, i < hfresh h -> ~ In i bi -> hb h' i = hb h i
}.

(** [h'] holds [gs'] in place of [gs], having touched nothing else and using only old or fresh ids. *)
Record upd_ok (h : hp) (A : list nat) (gs : list gt) (B : list nat) (h' : hp) (gs' : list gt) : Prop := UpdOk {
  uo_inv : inv h' A gs' B;
  uo_fr : frame h h' (lids gs) (bids gs);
  uo_l : forall i, In i (lids gs') -> In i (lids gs) \/ hfresh h <= i;
  uo_b : forall i, In i (bids gs') -> In i (bids gs) \/ hfresh h <= i;
  uo_hd : hd_error (lids gs') = hd_error (lids gs)
}.

Lemma lok_frame h h' ls : (forall i, In i (map fst ls) -> hl h' i = hl h i) ->
  Forall (lok h) ls -> Forall (lok h') ls.
Proof.
  intros H. rewrite !Forall_forall. intros F p Hp. destruct (F p Hp) as (l & E & R).
  exists l. split; auto. rewrite H; auto. now apply in_map.
Qed.
Lemma bok_frame h h' ls : (forall i, In i (map fst ls) -> hb h' i = hb h i) ->
  Forall (bok h) ls -> Forall (bok h') ls.
Proof.
  intros H. rewrite !Forall_forall. intros F p Hp. destruct (F p Hp) as (l & E & R).
  exists l. split; auto. rewrite H; auto. now apply in_map.
Qed.

(** Changing the heap outside the footprint. *)
Lemma inv_frame h h' A gs B :
  inv h A gs B ->
  (forall i, In i (lids gs) -> hl h' i = hl h i) ->
  (forall i, In i (bids gs) -> hb h' i = hb h i) ->
  (forall i, In i (A ++ B) -> live h' i) ->
  (forall i, In i (A ++ lids gs ++ B) -> hpv h' i = hpv h i /\ hnx h' i = hnx h i) ->
  hfresh h <= hfresh h' ->
  inv h' A gs B.
Proof.
  intros [I1 I2 I3 I4 I5 I6 I7 I8] H1 H2 H3 H4 H5. constructor; auto.
  - eapply lok_frame; eauto.
  - eapply bok_frame; eauto.
  - intros i Hi. apply I5 in Hi. lia.
  - intros i Hi. apply I6 in Hi. lia.
  - eapply seg_frame; eauto.
Qed.

Lemma inv_live h A gs B i : inv h A gs B -> In i (A ++ lids gs ++ B) -> live h i.
Proof.
  intros I Hi. rewrite !in_app_iff in Hi. destruct Hi as [Hi|[Hi|Hi]].
  - apply (inv_liveA I). apply in_or_app; auto.
  - unfold lids in Hi. apply in_map_iff in Hi as (p & <- & Hp).
    pose proof (inv_l I) as F. rewrite Forall_forall in F. destruct (F p Hp) as (l & E & _). exists l; auto.
  - apply (inv_liveA I). apply in_or_app; auto.
Qed.

Lemma NoDup_app_inv {A} (a b : list A) : NoDup (a ++ b) -> NoDup a /\ NoDup b /\ (forall x, In x a -> In x b -> False).
Proof.
  induction a as [|x a IH]; simpl; intros H.
  - splits; auto. constructor.
  - inversion H as [|? ? H1 H2]; subst. destruct (IH H2) as (Ha & Hb & Hab). rewrite in_app_iff in H1. splits; auto.
    + constructor; tauto.
    + intros y [->|Hy] Hyb; eauto.
Qed.

Lemma NoDup_app_mk {A} (a b : list A) : NoDup a -> NoDup b -> (forall x, In x a -> In x b -> False) -> NoDup (a ++ b).
Proof.
  induction a as [|x a IH]; simpl; intros Ha Hb H; [exact Hb|]. inversion Ha; subst. constructor.
  - rewrite in_app_iff. intros [?|?]; [tauto|]. eapply H; eauto.
  - apply IH; auto. intros y ? ?. eapply H; eauto.
Qed.

(** A sub-forest is held in a larger context. *)
Lemma inv_sub h A CA gs CB B : inv h A (CA ++ gs ++ CB) B -> inv h (A ++ lids CA) gs (lids CB ++ B).
Proof.
  intros I. pose proof I as [I1 I2 I3 I4 I5 I6 I7 I8].
  rewrite !lids_app in *. rewrite !bids_app in *. rewrite !lvs_app in I1. rewrite !nds_app in I2.
  rewrite !Forall_app in I1, I2.
  assert (E : (A ++ lids CA) ++ lids gs ++ lids CB ++ B = A ++ (lids CA ++ lids gs ++ lids CB) ++ B)
    by (rewrite <- !app_assoc; reflexivity).
  constructor; try (rewrite E; auto); try tauto.
  - apply NoDup_app_inv in I4 as (_ & I4 & _). now apply NoDup_app_inv in I4 as (I4 & _).
  - intros i Hi. apply I6. rewrite !in_app_iff. tauto.
  - intros i Hi. apply (inv_live I). rewrite !lids_app. rewrite !in_app_iff in *. tauto.
Qed.

Lemma hd_ctx {T} (a x y b : list T) : hd_error x = hd_error y -> hd_error (a ++ x ++ b) = hd_error (a ++ y ++ b).
Proof. destruct a; auto. destruct x, y; intros H; try discriminate; auto. Qed.

Lemma upd_ctx h A CA gs CB B h' gs' :
  inv h A (CA ++ gs ++ CB) B ->
  upd_ok h (A ++ lids CA) gs (lids CB ++ B) h' gs' ->
  upd_ok h A (CA ++ gs ++ CB) B h' (CA ++ gs' ++ CB).
Proof.
  intros I [[J1 J2 J3 J4 J5 J6 J7 J8] [F1 F2 F3] U1 U2 U3].
  pose proof I as [I1 I2 I3 I4 I5 I6 I7 I8].
  rewrite !lids_app in *. rewrite !bids_app in *. rewrite !lvs_app in I1. rewrite !nds_app in I2.
  rewrite !Forall_app in I1, I2.
  assert (E : (A ++ lids CA) ++ lids gs' ++ lids CB ++ B = A ++ (lids CA ++ lids gs' ++ lids CB) ++ B)
    by (rewrite <- !app_assoc; reflexivity).
  rewrite E in J3, J5, J8.
  assert (ND := I3).
  replace (A ++ (lids CA ++ lids gs ++ lids CB) ++ B) with ((A ++ lids CA) ++ lids gs ++ (lids CB ++ B)) in ND
    by (rewrite <- !app_assoc; reflexivity).
  apply NoDup_app_inv in ND as (ND1 & ND2 & ND3). apply NoDup_app_inv in ND2 as (ND4 & ND5 & ND6).
  pose proof I4 as NB. apply NoDup_app_inv in NB as (NB1 & NB2 & NB3). apply NoDup_app_inv in NB2 as (NB4 & NB5 & NB6).
  constructor.
  - constructor.
    + rewrite !lvs_app, !Forall_app. splits; auto.
      * eapply lok_frame; [|apply I1]. intros i Hi. fold (lids CA) in Hi. apply F2.
        -- apply I5. rewrite !in_app_iff. tauto.
        -- intros Hc. eapply ND3; [apply in_or_app; right; exact Hi|]. apply in_or_app; auto.
      * eapply lok_frame; [|apply I1]. intros i Hi. fold (lids CB) in Hi. apply F2.
        -- apply I5. rewrite !in_app_iff. tauto.
        -- intros Hc. eapply ND6; [exact Hc|]. apply in_or_app; auto.
    + rewrite !nds_app, !Forall_app. splits; auto.
      * eapply bok_frame; [|apply I2]. intros i Hi. fold (bids CA) in Hi. apply F3.
        -- apply I6. rewrite !in_app_iff. tauto.
        -- intros Hc. eapply NB3; [exact Hi|]. apply in_or_app; auto.
      * eapply bok_frame; [|apply I2]. intros i Hi. fold (bids CB) in Hi. apply F3.
        -- apply I6. rewrite !in_app_iff. tauto.
        -- intros Hc. eapply NB6; [exact Hc|]. auto.
    + rewrite !lids_app. exact J3.
    + rewrite !bids_app. apply NoDup_app_mk; auto.
      * apply NoDup_app_mk; auto. intros x Hx Hy. destruct (U2 x Hx) as [Hg|Hf].
        -- eapply NB6; eauto.
        -- assert (x < hfresh h) by (apply I6; rewrite !in_app_iff; tauto). lia.
      * intros x Hx Hy. apply in_app_or in Hy as [Hy|Hy].
        -- destruct (U2 x Hy) as [Hg|Hf].
           ++ eapply NB3; [exact Hx|]. apply in_or_app; auto.
           ++ assert (x < hfresh h) by (apply I6; rewrite !in_app_iff; tauto). lia.
        -- eapply NB3; [exact Hx|]. apply in_or_app; auto.
    + rewrite !lids_app. exact J5.
    + intros i Hi. rewrite !bids_app, !in_app_iff in Hi. destruct Hi as [Hi|[Hi|Hi]].
      * assert (i < hfresh h) by (apply I6; rewrite !in_app_iff; tauto). lia.
      * auto.
      * assert (i < hfresh h) by (apply I6; rewrite !in_app_iff; tauto). lia.
    + intros i Hi. apply J7. rewrite !in_app_iff in *. tauto.
    + rewrite !lids_app. exact J8.
  - constructor; auto.
    + intros i Hi Hn. apply F2; auto. intros Hc. apply Hn. rewrite !lids_app, !in_app_iff. tauto.
    + intros i Hi Hn. apply F3; auto. intros Hc. apply Hn. rewrite !bids_app, !in_app_iff. tauto.
  - intros i. rewrite !lids_app, !in_app_iff. intros [Hi|[Hi|Hi]]; auto. destruct (U1 i Hi); auto.
  - intros i. rewrite !bids_app, !in_app_iff. intros [Hi|[Hi|Hi]]; auto. destruct (U2 i Hi); auto.
  - rewrite !lids_app. now apply hd_ctx.
Qed.

Lemma upd_refl h A gs B : inv h A gs B -> upd_ok h A gs B h gs.
Proof. intros I. constructor; auto. constructor; auto. Qed.

Lemma upd_trans h A gs B h1 gs1 h2 gs2 :
  upd_ok h A gs B h1 gs1 -> upd_ok h1 A gs1 B h2 gs2 -> upd_ok h A gs B h2 gs2.
Proof.
  clear M. intros [J [F1 F2 F3] U1 U2 U3] [J' [F1' F2' F3'] U1' U2' U3']. constructor; auto.
  - constructor; [lia| |].
    + intros i Hi Hn. rewrite F2', F2; auto; [lia|]. intros Hc. destruct (U1 i Hc); [tauto|lia].
    + intros i Hi Hn. rewrite F3', F3; auto; [lia|]. intros Hc. destruct (U2 i Hc); [tauto|lia].
  - intros i Hi. destruct (U1' i Hi) as [H|H]; [|lia]. auto.
  - intros i Hi. destruct (U2' i Hi) as [H|H]; [|lia]. auto.
  - congruence.
Qed.

(** Branch node on top of its children. *)
Lemma inv_GB h A i ks cs B : inv h A [GB i ks cs] B <->
  inv h A cs B /\ i < hfresh h /\ ~ In i (bids cs) /\ bok h (i, (ks, map gid cs)).
Proof.
  split.
  - intros [I1 I2 I3 I4 I5 I6 I7 I8]. rewrite lids_GB in *. rewrite bids_GB in *.
    rewrite lvs_GB in I1. rewrite nds_GB in I2. inversion I2; subst. inversion I4; subst. splits; auto.
    + constructor; auto. intros; apply I6; simpl; auto.
    + apply I6; simpl; auto.
  - intros ([I1 I2 I3 I4 I5 I6 I7 I8] & H1 & H2 & H3).
    constructor; rewrite ?lids_GB, ?bids_GB, ?lvs_GB, ?nds_GB; auto.
    + constructor; auto.
    + intros j [<-|Hj]; auto.
Qed.

Lemma upd_same f i x : @upd branch f i x i = x.
Proof. unfold upd. now rewrite Nat.eqb_refl. Qed.
Lemma upd_same' A f i x : @upd A f i x i = x.
Proof. unfold upd. now rewrite Nat.eqb_refl. Qed.
Lemma upd_other A f i x j : j <> i -> @upd A f i x j = f j.
Proof. intros H. unfold upd. destruct (Nat.eqb_spec j i); [congruence|reflexivity]. Qed.

(** Writing a branch node outside the footprint. *)
Lemma inv_set_branch h A gs B i b : inv h A gs B -> ~ In i (bids gs) -> inv (set_branch h i b) A gs B.
Proof.
  intros I H. eapply inv_frame; eauto; simpl; auto.
  - intros j Hj. apply upd_other. intros ->. auto.
  - intros j Hj. apply (inv_live I). rewrite !in_app_iff in *. tauto.
Qed.

(** The children changed, then the node itself was rewritten. *)
Lemma upd_node h A i ks cs B h1 cs1 b' ks' cs' :
  inv h A [GB i ks cs] B ->
  upd_ok h A cs B h1 cs1 ->
  cs' = cs1 -> brep N b' ks' (map gid cs') ->
  upd_ok h A [GB i ks cs] B (set_branch h1 i b') [GB i ks' cs'].
Proof.
  intros I [J [F1 F2 F3] U1 U2 U3] -> HB. apply inv_GB in I as (I & Hi & Hni & _).
  assert (Hni1 : ~ In i (bids cs1)).
  { intros Hc. destruct (U2 i Hc); [tauto|lia]. }
  constructor.
  - apply inv_GB. splits.
    + now apply inv_set_branch.
    + simpl. lia.
    + exact Hni1.
    + exists b'. simpl. rewrite upd_same. auto.
  - constructor; cbn [set_branch hfresh hl hb]; auto.
    + intros j Hj. rewrite lids_GB. auto.
    + intros j Hj Hn. rewrite bids_GB in Hn. simpl in Hn. rewrite upd_other by (intros ->; tauto). apply F3; tauto.
  - intros j. rewrite !lids_GB. auto.
  - intros j. rewrite !bids_GB. simpl. intros [<-|Hj]; auto. destruct (U2 j Hj); auto.
  - now rewrite !lids_GB.
Qed.

(** The children changed, the node itself stayed. *)
Lemma upd_node_same h A i ks cs B h1 cs1 :
  inv h A [GB i ks cs] B -> upd_ok h A cs B h1 cs1 -> map gid cs1 = map gid cs ->
  upd_ok h A [GB i ks cs] B h1 [GB i ks cs1].
Proof.
  intros I [J [F1 F2 F3] U1 U2 U3] HE. apply inv_GB in I as (I & Hi & Hni & Hb).
  assert (Hni1 : ~ In i (bids cs1)).
  { intros Hc. destruct (U2 i Hc); [tauto|lia]. }
  constructor.
  - apply inv_GB. splits; auto; [lia|]. destruct Hb as (b & E & HB). exists b. simpl in *.
    rewrite F3 by auto. rewrite HE. auto.
  - constructor; cbn [set_branch hfresh hl hb]; auto.
    + intros j Hj. rewrite lids_GB. auto.
    + intros j Hj Hn. rewrite bids_GB in Hn. simpl in Hn. apply F3; tauto.
  - intros j. rewrite !lids_GB. auto.
  - intros j. rewrite !bids_GB. simpl. intros [<-|Hj]; auto. destruct (U2 j Hj); auto.
  - now rewrite !lids_GB.
Qed.

(** ** Shape *)
Variables minL minB : nat.
Definition mn (d : nat) := match d with 0 => minL | S _ => minB end.

(** Depth [d], keys in [lo, hi), at least [m] keys in the top node, usual minimum below. *)
Fixpoint wf (m d : nat) (lo hi : option Z) (g : gt) : Prop :=
  match d, g with
  | 0, GL _ es => sorted es /\ Forall (inb lo hi) (keys es) /\ m <= length es <= M
  | S d', GB _ ks cs => m <= length ks <= N /\ kids (wf (mn d') d') lo ks cs hi
  | _, _ => False
  end.

Lemma wf_mono m m' d lo hi g : m' <= m -> wf m d lo hi g -> wf m' d lo hi g.
Proof. clear lrep. intros H. destruct d, g; simpl; try tauto; intuition lia. Qed.

Definition okc (R : option Z -> option Z -> gt -> Prop) :=
  forall x y c, R x y c -> sorted (ents [c]) /\ Forall (inb x y) (keys (ents [c])).

Lemma ents_cons c cs : ents (c :: cs) = ents [c] ++ ents cs.
Proof. apply (ents_app [c] cs). Qed.

Lemma inb_weak lo hi lo' hi' k : inb lo hi k -> (forall z, lob lo z -> lob lo' z) -> (forall z, hib hi z -> hib hi' z) ->
  inb lo' hi' k.
Proof. intros [H1 H2] H3 H4. split; auto. Qed.

Lemma bl_lob lo k z : bl lo (Some k) -> lob (Some k) z -> lob lo z.
Proof. destruct lo; simpl; auto; lia. Qed.
Lemma bl_hib hi k z : bl (Some k) hi -> hib (Some k) z -> hib hi z.
Proof. destruct hi; simpl; auto; lia. Qed.

Lemma kids_ents R : okc R -> forall ks cs lo hi, kids R lo ks cs hi ->
  sorted (ents cs) /\ Forall (inb lo hi) (keys (ents cs)).
Proof.
  intros HR. induction ks as [|k ks IH]; intros [|c cs] lo hi H; try (simpl in H; tauto).
  - simpl in H. destruct cs; [|tauto]. apply HR. tauto.
  - cbn [kids] in H. destruct H as (H1 & H2 & H3). apply HR in H2 as [S1 F1].
    pose proof (kids_bl H3) as HB.
    destruct (IH _ _ _ H3) as [S2 F2]. rewrite ents_cons. rewrite keys_app, Forall_app.
    rewrite Forall_forall in F1, F2.
    splits.
    + apply sorted_app. splits; auto. intros x y Hx Hy. apply F1 in Hx as [_ Hx]. apply F2 in Hy as [Hy _].
      simpl in *. lia.
    + rewrite Forall_forall. intros x Hx. apply F1 in Hx. eapply inb_weak; eauto.
      intros z. apply bl_hib. auto.
    + rewrite Forall_forall. intros x Hx. apply F2 in Hx. eapply inb_weak; eauto.
      intros z. apply bl_lob; auto.
Qed.

Lemma wf_okc m d : okc (wf m d).
Proof.
  revert m; induction d as [|d IH]; intros m x y [i es|i ks cs] H; simpl in H; try tauto.
  - rewrite ents_GL. tauto.
  - rewrite ents_GB. eapply kids_ents; [|apply H]. apply IH.
Qed.

Lemma kl_ents R : okc R -> forall a CA lo, kl R lo a CA -> sorted (ents CA) /\
  (forall x, In x (keys (ents CA)) -> lob lo x) /\
  (forall x z, In x (keys (ents CA)) -> lob (lb lo a) z -> (x < z)%Z).
Proof.
  intros HR. induction a as [|k a IH]; intros [|c CA] lo H; try (simpl in H; tauto).
  - splits; [constructor| |]; simpl; tauto.
  - cbn [kl] in H. destruct H as (H1 & H2 & H3). apply HR in H2 as [S1 F1]. rewrite Forall_forall in F1.
    destruct (IH _ _ H3) as (S2 & F2 & F3). rewrite ents_cons, keys_app. splits.
    + apply sorted_app. splits; auto. intros x y Hx Hy. apply F1 in Hx as [_ Hx]. apply F2 in Hy. simpl in *. lia.
    + intros x Hx. apply in_app_or in Hx as [Hx|Hx]; [apply F1 in Hx; apply Hx|].
      eapply bl_lob; eauto.
    + intros x z Hx Hz. rewrite lb_cons in Hz. apply in_app_or in Hx as [Hx|Hx].
      * apply F1 in Hx as [_ Hx]. simpl in Hx.
        assert (k <= z)%Z; [|lia]. clear -H3 Hz. revert k CA H3 Hz. induction a as [|k' a IHa]; intros k CA H3 Hz.
        -- exact Hz.
        -- destruct CA as [|c CA]; [simpl in H3; tauto|]. cbn [kl] in H3. destruct H3 as (B & _ & H3).
           rewrite lb_cons in Hz. specialize (IHa _ _ H3 Hz). simpl in B. lia.
      * eapply F3; eauto.
Qed.

Lemma kr_ents R : okc R -> forall b CB hi, kr R b CB hi -> sorted (ents CB) /\
  (forall x, In x (keys (ents CB)) -> hib hi x) /\
  (forall x z, In x (keys (ents CB)) -> hib (hbd b hi) z -> (z < x)%Z).
Proof.
  intros HR. induction b as [|k b IH]; intros [|c CB] hi H; try (simpl in H; tauto).
  - splits; [constructor| |]; simpl; tauto.
  - cbn [kr] in H. destruct H as (H1 & H2 & H3). apply HR in H2 as [S1 F1]. rewrite Forall_forall in F1.
    destruct (IH _ _ H3) as (S2 & F2 & F3). rewrite ents_cons, keys_app. splits.
    + apply sorted_app. splits; auto. intros x y Hx Hy. apply F1 in Hx as [_ Hx]. eapply F3; eauto.
    + intros x Hx. apply in_app_or in Hx as [Hx|Hx]; [|now apply F2].
      apply F1 in Hx as [_ Hx]. destruct b as [|k' b]; [exact Hx|]. simpl in Hx.
      destruct CB as [|c' CB]; [simpl in H3; tauto|].
      clear -H3 Hx. revert k' c' CB H3 Hx. induction b as [|k2 b IHb]; intros k' c' CB H3 Hx.
      * cbn [kr] in H3. simpl in H3. destruct H3 as (B & _). destruct hi; simpl in *; auto; lia.
      * cbn [kr] in H3. destruct H3 as (B & _ & H3). destruct CB as [|c2 CB]; [simpl in H3; tauto|].
        simpl in B. eapply IHb; eauto. lia.
    + intros x z Hx Hz. simpl in Hz. apply in_app_or in Hx as [Hx|Hx].
      * apply F1 in Hx as [Hx _]. simpl in Hx. lia.
      * eapply F3; eauto. eapply bl_hib; eauto.
Qed.

(** Entries to the left are smaller and to the right are larger than a key routed to the middle. *)
Lemma ctx_ents R a CA b CB lo hi : okc R -> kl R lo a CA -> kr R b CB hi ->
  forall k, inb (lb lo a) (hbd b hi) k -> alt k (keys (ents CA)) /\ agt k (keys (ents CB)).
Proof.
  intros HR HL HRr k [H1 H2]. split.
  - apply alt_in. intros x Hx. eapply (kl_ents HR HL); eauto.
  - apply agt_in. intros x Hx. eapply (kr_ents HR HRr); eauto.
Qed.

End Ghost.
