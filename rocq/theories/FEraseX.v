(** FPTree: an erase that does not meet [slots_ok] really loses a key. *)
From Verif Require Import Base ArrLemmas MapSpec SortedList SearchModel SearchProofs RankModel RankProofs BitmapModel BTreeModel BTreeSpec BTreeLaws BTreeBranch
  BTreeGhost BTreeInsert EraseSpec PathSpec BTreeErase BTreeHist BTreeMain SLeafModel SLeafProofs ULeafModel ULeafProofs UTreeProofs SlotLemmas FLeafModel FLeafProofs
  FTreeProofs EraseG CutModel CutSpec CutProofs CutEProofs PathProofs EraseX.
Open Scope nat_scope.

(** ** Binary search where only the order relative to the key is known *)
Lemma bsearch_cut key a b R :
  (forall i x, nth_error a i = Some x -> (x < key)%Z \/ (x = key /\ S i = length a)) -> (forall x, In x b -> (key < x)%Z) ->
  forall fuel l r pos, (0 <= l)%Z -> (r < Z.of_nat (length (a ++ b)))%Z -> (l <= Z.of_nat (length a) <= r + 1)%Z ->
  (r < l -> Z.of_nat pos = l)%Z -> (r - l < Z.of_nat fuel)%Z ->
  bsearch fuel true (map Some (a ++ b) ++ R) l r pos key = Ok (length a).
Proof.
  intros HA HB. induction fuel as [|f IH]; intros l r pos H0 H1 H2 H3 H4; cbn [bsearch]; destruct (Z.leb_spec l r) as [Hlr|Hlr].
  - lia.
  - specialize (H3 Hlr). f_equal. lia.
  - set (mid := Z.to_nat ((l + r) / 2)).
    assert (Hm : (l <= Z.of_nat mid <= r)%Z) by (unfold mid; rewrite Z2Nat.id by (apply Z.div_pos; lia); split; [apply Z.div_le_lower_bound|apply Z.div_le_upper_bound]; lia).
    destruct (nth_error (a ++ b) mid) as [x|] eqn:Ex; [|apply nth_error_None in Ex; lia].
    assert (Eg : aget (map Some (a ++ b) ++ R) mid = Ok x).
    { unfold aget. rewrite nth_error_app1 by (rewrite map_length; lia). rewrite nth_error_map, Ex. reflexivity. }
    rewrite Eg. cbn [bind]. destruct (Nat.lt_ge_cases mid (length a)) as [Hl|Hl].
    + rewrite nth_error_app1 in Ex by exact Hl. destruct (HA _ _ Ex) as [Hx|[-> Hx]].
      * destruct (Z.eqb_spec x key); [lia|]. destruct (Z.ltb_spec x key); [|lia]. apply IH; lia.
      * rewrite Z.eqb_refl. f_equal. exact Hx.
    + rewrite nth_error_app2 in Ex by exact Hl. apply nth_error_In in Ex. apply HB in Ex.
      destruct (Z.eqb_spec x key); [lia|]. destruct (Z.ltb_spec x key); [lia|]. apply IH; lia.
  - specialize (H3 Hlr). f_equal. lia.
Qed.

(** ** Branch nodes equal up to related keys *)
Section Rel.
Variable L : Type.
Variable N : nat.
Variable K : Z -> Z -> Prop.
Hypothesis K0 : forall x, K x x.
Notation hp := (heap L).
Implicit Types h : hp.

Definition ork (o o' : option Z) : Prop := match o, o' with Some x, Some x' => K x x' | None, None => True | _, _ => False end.
Definition AR : arr Z -> arr Z -> Prop := Forall2 ork.
Definition BR (b b' : branch) : Prop := bn b' = bn b /\ bc b' = bc b /\ AR (bk b) (bk b').
Definition HR (h h' : hp) : Prop := forall i, match hb h i, hb h' i with Some b, Some b' => BR b b' | None, None => True | _, _ => False end.

Lemma AR_refl a : AR a a.
Proof. unfold AR. induction a as [|[x|] a IH].
  - apply Forall2_nil.
  - apply Forall2_cons; [apply K0|exact IH].
  - apply Forall2_cons; [exact Logic.I|exact IH].
Qed.
Lemma BR_refl b : BR b b.
Proof. unfold BR. splits; auto. apply AR_refl. Qed.
Lemma HR_refl h h' : hb h = hb h' -> HR h h'.
Proof. intros E i. rewrite E. destruct (hb h' i); auto. apply BR_refl. Qed.

Lemma AR_length a a' : AR a a' -> length a' = length a.
Proof. induction 1; cbn [length]; auto. Qed.
Lemma aget_rel a a' i x : AR a a' -> aget a i = Ok x -> exists x', aget a' i = Ok x' /\ K x x'.
Proof.
  intros H. revert i. induction H as [|o o' a a' Ho Ha IH]; intros i; [destruct i; discriminate|].
  destruct i as [|i]; [|exact (IH i)]. unfold aget. cbn [nth_error]. destruct o, o'; try contradiction; try discriminate. intros [= <-]. eauto.
Qed.
Lemma lset_rel a a' i x x' r : AR a a' -> K x x' -> lset a i (Some x) = Some r -> exists r', lset a' i (Some x') = Some r' /\ AR r r'.
Proof.
  intros H Hx. revert i r. induction H as [|o o' a a' Ho Ha IH]; intros i r E; [discriminate|].
  destruct i as [|i]; cbn [lset] in E |- *.
  - injection E as <-. eexists. split; [reflexivity|]. constructor; auto.
  - destruct (lset a i (Some x)) as [q|] eqn:Eq; [|discriminate]. injection E as <-. destruct (IH i q Eq) as (q' & -> & Hq).
    eexists. split; [reflexivity|]. constructor; auto.
Qed.
Lemma aset_rel a a' i x x' r : AR a a' -> K x x' -> aset a i x = Ok r -> exists r', aset a' i x' = Ok r' /\ AR r r'.
Proof.
  unfold aset. intros H Hx E. destruct (lset a i (Some x)) as [q|] eqn:Eq; [|discriminate]. injection E as <-.
  destruct (lset_rel H Hx Eq) as (q' & -> & Hq). exists q'. auto.
Qed.
Lemma for_up_rel {S S'} (R : S -> S' -> Prop) f g : forall n lo s s' r, (forall i x x' y, R x x' -> f i x = Ok y -> exists y', g i x' = Ok y' /\ R y y') ->
  R s s' -> for_up lo n f s = Ok r -> exists r', for_up lo n g s' = Ok r' /\ R r r'.
Proof.
  induction n as [|n IH]; intros lo s s' r H Hs E; cbn [for_up] in *; [injection E as <-; eauto|].
  bnd E. destruct (H _ _ _ _ Hs E0) as (y' & -> & Hy). cbn [bind]. eapply IH; eauto.
Qed.
Lemma for_down_rel {S S'} (R : S -> S' -> Prop) f g : forall n hi s s' r, (forall i x x' y, R x x' -> f i x = Ok y -> exists y', g i x' = Ok y' /\ R y y') ->
  R s s' -> for_down hi n f s = Ok r -> exists r', for_down hi n g s' = Ok r' /\ R r r'.
Proof.
  induction n as [|n IH]; intros hi s s' r H Hs E; cbn [for_down] in *; [injection E as <-; eauto|].
  bnd E. destruct (H _ _ _ _ Hs E0) as (y' & -> & Hy). cbn [bind]. eapply IH; eauto.
Qed.
Definition PR (p p' : arr Z * arr nat) : Prop := AR (fst p) (fst p') /\ snd p' = snd p.

Lemma getb_rel h h' i b : HR h h' -> getb h i = Ok b -> exists b', getb h' i = Ok b' /\ BR b b'.
Proof.
  intros H. specialize (H i). unfold getb. destruct (hb h i) as [q|], (hb h' i) as [q'|]; try contradiction; try discriminate.
  intros [= ->]. exists q'. auto.
Qed.
Lemma set_branch_rel h h' i b b' : HR h h' -> BR b b' -> HR (set_branch h i b) (set_branch h' i b').
Proof. intros H Hb j. cbn [set_branch hb]. unfold upd. destruct (Nat.eqb_spec j i); [exact Hb|apply H]. Qed.
Lemma del_branch_rel h h' i : HR h h' -> HR (del_branch h i) (del_branch h' i).
Proof. intros H j. cbn [del_branch hb]. unfold upd. destruct (Nat.eqb_spec j i); [exact Logic.I|apply H]. Qed.

(** one copied key and one copied child *)
Lemma step_rel (src src' : arr Z) (fs fd gs gd : nat) (csrc : arr nat) kc kc' r : AR src src' -> PR kc kc' ->
  (do ks <- (do x <- aget src fs; aset (fst kc) fd x); do cs <- (do x <- aget csrc gs; aset (snd kc) gd x); Ok (ks, cs)) = Ok r ->
  exists r', (do ks <- (do x <- aget src' fs; aset (fst kc') fd x); do cs <- (do x <- aget csrc gs; aset (snd kc') gd x); Ok (ks, cs)) = Ok r' /\ PR r r'.
Proof.
  intros Hs [Hk Hc] E. bnd E. rename E0 into E1. rename x into kk. bnd E1.
  match goal with X : aget src fs = Ok _ |- _ => destruct (aget_rel Hs X) as (x' & -> & Hx) end. cbn [bind].
  destruct (aset_rel Hk Hx E1) as (kk' & -> & Hkk). cbn [bind]. rewrite Hc. bnd E. injection E as <-. cbn [bind]. eexists. split; [reflexivity|].
  split; cbn [fst snd]; auto.
Qed.

Lemma merge_branch_rel h h' a k k' b r : HR h h' -> K k k' -> merge_branch h a k b = Ok r -> exists r', merge_branch h' a k' b = Ok r' /\ HR r r'.
Proof.
  intros H Hk E. unfold merge_branch in *. bnd E. match goal with X : getb h b = Ok _ |- _ => destruct (getb_rel H X) as (nb' & -> & (A1 & A2 & A3)) end. cbn [bind].
  bnd E. match goal with X : getb h a = Ok _ |- _ => destruct (getb_rel H X) as (sb' & -> & (B1 & B2 & B3)) end. cbn [bind].
  rewrite A1, A2, B1, B2. bnd E. match goal with X : aset _ _ k = Ok _ |- _ => destruct (aset_rel B3 Hk X) as (ks' & -> & Hks) end. cbn [bind].
  bnd E. cbn [bind]. bnd E. cbn [bind]. bnd E. injection E as <-.
  match goal with X : for_up _ _ _ (?u, ?w) = Ok ?y |- _ => rename y into kc; destruct (fun HS HI => @for_up_rel _ _ PR _
     (fun i kc => do ks <- (do x <- aget (bk nb') i; aset (fst kc) (bn x0 + i + 1) x);
                          do cs <- (do x <- aget (bc x) (i + 1); aset (snd kc) (bn x0 + i + 2) x);
                          Ok (ks, cs)) (bn x) 0 (u, w) (ks', w) kc HS HI X) as (kc' & Ekc & [H1 H2]); [| |] end.
  - intros i p p' y Hp Ey. exact (step_rel A3 Hp Ey).
  - split; auto.
  - rewrite Ekc. cbn [bind]. eexists. split; [reflexivity|]. apply set_branch_rel; auto. unfold BR; cbn [bn bk bc]; splits; auto.
Qed.

Lemma free_branch_rel h h' a r : HR h h' -> free_branch h a = Ok r -> exists r', free_branch h' a = Ok r' /\ HR r r'.
Proof.
  intros H E. unfold free_branch in *. bnd E. match goal with X : getb h a = Ok _ |- _ => destruct (getb_rel H X) as (b' & -> & _) end. cbn [bind].
  injection E as <-. eexists. split; [reflexivity|]. now apply del_branch_rel.
Qed.

Lemma remove_branch_child_rel h h' a p q r : HR h h' -> remove_branch_child h a p q = Ok r -> exists r', remove_branch_child h' a p q = Ok r' /\ HR r r'.
Proof.
  intros H E. unfold remove_branch_child in *. bnd E. match goal with X : getb h a = Ok _ |- _ => destruct (getb_rel H X) as (b' & -> & (A1 & A2 & A3)) end. cbn [bind].
  rewrite A1, A2. bnd E. match goal with X : for_up _ _ _ (bk _) = Ok ?y |- _ => destruct (fun HS HI => @for_up_rel _ _ AR _ (fun i k => do x <- aget k (i + 1); aset k i x) (bn x - 1 - p) p (bk x) (bk b') y HS HI X) as (ks' & -> & Hks); [|exact A3|] end.
  { intros i u u' y Hu Ey. bnd Ey. match goal with X : aget u _ = Ok _ |- _ => destruct (aget_rel Hu X) as (z' & -> & Hz) end. cbn [bind]. exact (aset_rel Hu Hz Ey). }
  cbn [bind]. bnd E. cbn [bind]. injection E as <-. eexists. split; [reflexivity|]. apply set_branch_rel; auto. unfold BR; cbn [bn bk bc]; splits; auto.
Qed.

(** the comparison made by balance_branch comes out the same *)
Definition same_cmp (h h' : hp) (d r : nat) : Prop := forall db rb db' rb' d0 r0 d0' r0', hb h d = Some db -> hb h r = Some rb -> hb h' d = Some db' -> hb h' r = Some rb' ->
  aget (bk db) 0 = Ok d0 -> aget (bk rb) 0 = Ok r0 -> aget (bk db') 0 = Ok d0' -> aget (bk rb') 0 = Ok r0' -> (d0' <? r0')%Z = (d0 <? r0)%Z.

Lemma balance_branch_rel h h' d rc p q r : HR h h' -> same_cmp h h' d rc -> balance_branch h d rc p q = Ok r -> exists r', balance_branch h' d rc p q = Ok r' /\ HR r r'.
Proof.
  intros H HC E. unfold balance_branch in *. cbv zeta in *.
  bnd E. rename x into db. rename E0 into Ed. destruct (getb_rel H Ed) as (db' & Ed' & (A1 & A2 & A3)). rewrite Ed'. cbn [bind].
  bnd E. rename x into rb. rename E0 into Er. destruct (getb_rel H Er) as (rb' & Er' & (B1 & B2 & B3)). rewrite Er'. cbn [bind].
  bnd E. rename x into pb. rename E0 into Ep. destruct (getb_rel H Ep) as (pb' & Ep' & (C1 & C2 & C3)). rewrite Ep'. cbn [bind].
  rewrite A1, A2, B1, B2, C1, C2. bnd E; [discriminate E|]. bnd E; [injection E as <-; eauto|].
  bnd E. rename x into d0. rename E2 into Ed0. destruct (aget_rel A3 Ed0) as (d0' & Ed0' & _). rewrite Ed0'. cbn [bind].
  bnd E. rename x into r0. rename E2 into Er0. destruct (aget_rel B3 Er0) as (r0' & Er0' & _). rewrite Er0'. cbn [bind].
  assert (EC : (d0' <? r0')%Z = (d0 <? r0)%Z).
  { assert (GB : forall g i (b : branch), getb g i = Ok b -> hb (g : hp) i = Some b) by (intros g i b; unfold getb; destruct (hb g i); [intros [= ->]; auto|discriminate]).
    eapply HC; eauto. }
  rewrite EC. set (mv := bn db - (bn db + bn rb) / 2) in *. bnd E.
  - bnd E. cbn [bind]. bnd E. cbn [bind]. bnd E.
    match goal with X : for_down _ _ _ (?u, ?w) = Ok ?y |- _ => rename y into kc; destruct (fun HS HI => @for_down_rel _ _ PR _
      (fun i kc => do ks <- (do x <- aget (fst kc) (i - 1); aset (fst kc) (i + mv - 1) x);
                            do cs <- (do x <- aget (snd kc) (i - 1); aset (snd kc) (i + mv - 1) x);
                            Ok (ks, cs)) (bn rb) (bn rb) (u, w) (bk rb', w) kc HS HI X) as (kc' & -> & [H1 H2]); [| |] end.
    { intros i u u' y [Hu1 Hu2] Ey. pose proof (@step_rel (fst u) (fst u') (i - 1) (i + mv - 1) (i - 1) (i + mv - 1) (snd u) u u' y Hu1 (conj Hu1 Hu2) Ey) as Q. rewrite Hu2 in Q |- *. exact Q. }
    { split; auto. }
    cbn [bind]. rewrite H2. bnd E. cbn [bind]. bnd E.
    match goal with X : for_up _ _ _ (fst kc) = Ok ?y |- _ => destruct (fun HS HI => @for_up_rel _ _ AR _ (fun i c => do x <- aget (bk db') (bn db - mv + 1 + i); aset c i x) (mv - 1) 0 (fst kc) (fst kc') y HS HI X) as (rk & -> & Hrk); [|exact H1|] end.
    { intros i u u' y Hu Ey. bnd Ey. match goal with X : aget (bk db) _ = Ok _ |- _ => destruct (aget_rel A3 X) as (z' & -> & Hz) end. cbn [bind]. exact (aset_rel Hu Hz Ey). }
    cbn [bind]. bnd E. match goal with X : aget (bk pb) _ = Ok _ |- _ => destruct (aget_rel C3 X) as (pk & -> & Hpk) end. cbn [bind].
    bnd E. match goal with X : aset _ (mv - 1) _ = Ok _ |- _ => destruct (aset_rel Hrk Hpk X) as (rk2 & -> & Hrk2) end. cbn [bind].
    bnd E. match goal with X : aget (bk db) _ = Ok _ |- _ => destruct (aget_rel A3 X) as (dk & -> & Hdk) end. cbn [bind].
    bnd E. match goal with X : aset (bk pb) _ _ = Ok _ |- _ => destruct (aset_rel C3 Hdk X) as (pks & -> & Hpks) end. cbn [bind].
    injection E as <-. eexists. split; [reflexivity|]. repeat apply set_branch_rel; auto; unfold BR; cbn [bn bk bc]; splits; auto.
  - bnd E. match goal with X : for_up _ _ _ (?u, ?w) = Ok ?y |- _ => rename y into kc; destruct (fun HS HI => @for_up_rel _ _ PR _
      (fun i kc => do ks <- (do x <- aget (bk db') i; aset (fst kc) (bn rb + 1 + i) x);
                            do cs <- (do x <- aget (bc db) i; aset (snd kc) (bn rb + 1 + i) x);
                            Ok (ks, cs)) mv 0 (u, w) (bk rb', w) kc HS HI X) as (kc' & -> & [H1 H2]); [| |] end.
    { intros i u u' y Hu Ey. exact (step_rel A3 Hu Ey). }
    { split; auto. }
    cbn [bind]. bnd E. match goal with X : aget (bk pb) _ = Ok _ |- _ => destruct (aget_rel C3 X) as (pk & -> & Hpk) end. cbn [bind].
    bnd E. match goal with X : aset (fst kc) _ _ = Ok _ |- _ => destruct (aset_rel H1 Hpk X) as (rk2 & -> & Hrk2) end. cbn [bind].
    bnd E. match goal with X : aget (bk db) _ = Ok _ |- _ => destruct (aget_rel A3 X) as (dk & -> & Hdk) end. cbn [bind].
    bnd E. match goal with X : for_up _ _ _ (?u, ?w) = Ok ?y |- _ => rename y into dkc; destruct (fun HS HI => @for_up_rel _ _ PR _
      (fun i kc => do ks <- (do x <- aget (fst kc) (mv + i); aset (fst kc) i x);
                            do cs <- (do x <- aget (snd kc) (mv + i); aset (snd kc) i x);
                            Ok (ks, cs)) (bn db - mv) 0 (u, w) (bk db', w) dkc HS HI X) as (dkc' & -> & [G1 G2]); [| |] end.
    { intros i u u' y [Hu1 Hu2] Ey. pose proof (@step_rel (fst u) (fst u') (mv + i) i (mv + i) i (snd u) u u' y Hu1 (conj Hu1 Hu2) Ey) as Q. rewrite Hu2 in Q |- *. exact Q. }
    { split; auto. }
    cbn [bind]. rewrite G2. bnd E. cbn [bind]. bnd E. cbn [bind]. bnd E.
    match goal with X : aset (bk pb) _ _ = Ok _ |- _ => destruct (aset_rel C3 Hdk X) as (pks & -> & Hpks) end. cbn [bind].
    injection E as <-. eexists. split; [reflexivity|]. rewrite H2. repeat apply set_branch_rel; auto; unfold BR; cbn [bn bk bc]; splits; auto.
Qed.

Lemma underflow_branch_rel h h' id pos c r c' b : HR h h' -> hb h id = Some b ->
  (forall d, (0 < pos /\ aget (bc b) (pos - 1) = Ok d) \/ (pos < bn b /\ aget (bc b) (pos + 1) = Ok d) -> same_cmp h h' d c) ->
  underflow_branch N h id pos c = Ok (r, c') -> exists r', underflow_branch N h' id pos c = Ok (r', c') /\ HR r r'.
Proof.
  intros H Eb HC E. unfold underflow_branch in *. cbv zeta in *. assert (Eg : getb h id = Ok b) by (unfold getb; now rewrite Eb).
  destruct (getb_rel H Eg) as (b' & Eb' & (A1 & A2 & A3)). rewrite Eg in E. rewrite Eb'. cbn [bind] in *. rewrite A1, A2.
  assert (PN : forall i n, (do p <- aget (bc b) i; do pb <- getb h p; Ok (bn pb)) = Ok n -> (do p <- aget (bc b) i; do pb <- getb h' p; Ok (bn pb)) = Ok n).
  { intros i n X. bnd X. cbn [bind]. bnd X. match goal with Y : getb h _ = Ok _ |- _ => destruct (getb_rel H Y) as (q & -> & (B1 & _)) end. cbn [bind]. now rewrite B1. }
  bnd E. replace (if 0 <? pos then do p <- aget (bc b) (pos - 1); do pb <- getb h' p; Ok (bn pb) else Ok 0) with (@Ok nat x)
    by (destruct (0 <? pos); [symmetry; apply PN; assumption|symmetry; assumption]).
  cbn [bind]. bnd E.
  - bnd E. cbn [bind]. bnd E. injection E as <- <-.
    match goal with X : _ && _ = true |- _ => apply andb_true_iff in X as [X _]; apply Nat.ltb_lt in X end.
    match goal with X : balance_branch _ ?d _ _ _ = Ok _ |- _ => assert (SC : same_cmp h h' d c) by (apply HC; left; split; auto); destruct (balance_branch_rel H SC X) as (r' & Er' & Hr) end. rewrite Er'.
    cbn [bind]. eauto.
  - bnd E. replace (if pos <? bn b then do n <- aget (bc b) (pos + 1); do nb <- getb h' n; Ok (bn nb) else Ok 0) with (@Ok nat x0)
      by (destruct (pos <? bn b); [symmetry; apply PN; assumption|symmetry; assumption]).
    cbn [bind]. bnd E.
    + bnd E. cbn [bind]. bnd E. injection E as <- <-.
      match goal with X : _ && _ = true |- _ => apply andb_true_iff in X as [X _]; apply Nat.ltb_lt in X end.
      match goal with X : balance_branch _ ?d _ _ _ = Ok _ |- _ => assert (SC : same_cmp h h' d c) by (apply HC; right; split; auto); destruct (balance_branch_rel H SC X) as (r' & Er' & Hr) end. rewrite Er'.
      cbn [bind]. eauto.
    + bnd E; [|bnd E; [|discriminate E]].
      all: bnd E; cbn [bind]; bnd E.
      all: match goal with X : aget (bk _) _ = Ok _ |- _ => destruct (aget_rel A3 X) as (kk & -> & Hk) end; cbn [bind]; bnd E.
      all: match goal with X : merge_branch _ _ _ _ = Ok _ |- _ => destruct (merge_branch_rel H Hk X) as (r1 & -> & F1) end; cbn [bind]; bnd E.
      all: match goal with X : free_branch _ _ = Ok _ |- _ => destruct (free_branch_rel F1 X) as (r2 & -> & F2) end; cbn [bind]; bnd E.
      all: match goal with X : remove_branch_child _ _ _ _ = Ok _ |- _ => destruct (remove_branch_child_rel F2 X) as (r3 & -> & F3) end; cbn [bind].
      all: injection E as <- <-; eauto.
Qed.

(** A node none of whose keys changes. *)
Lemma brep_rel b b' ks cs : (forall x x', In x ks -> K x x' -> x' = x) -> brep N b ks cs -> BR b b' -> brep N b' ks cs.
Proof.
  intros H (E1 & E2 & E3 & [R E4] & E5) (A1 & A2 & A3). unfold brep. rewrite A1, A2. splits; auto.
  - rewrite <- E2. now apply AR_length.
  - rewrite E4 in A3. clear - A3 H. revert A3. generalize (bk b') as a'. induction ks as [|x ks IH]; intros a' A3; [exists a'; reflexivity|].
    cbn [map app] in A3. inversion A3 as [|o o' l l' Ho Hl]; subst. destruct o' as [x'|]; [|contradiction]. cbn [ork] in Ho.
    rewrite (H x x') by (simpl; auto). destruct (IH ltac:(intros; apply H; simpl; auto) l' Hl) as (R' & ->). exists R'. reflexivity.
Qed.
Lemma room_rel (h h' : hp) id pos c r x : HR h h' -> room N h id pos c r = Ok x -> room N h' id pos c r = Ok x.
Proof.
  unfold room. intros H E.
  apply bind_inv in E as (b & Eb & E). apply bind_inv in E as (cb & Ec & E). apply bind_inv in E as (pn & Ep & E). apply bind_inv in E as (nn & En & E).
  destruct (getb_rel H Eb) as (b' & -> & (B1 & B2 & _)). destruct (getb_rel H Ec) as (cb' & -> & (C1 & _)). cbn [bind]. rewrite B1, B2, C1.
  assert (Gp : (if 0 <? pos then do p <- aget (bc b) (pos - 1); do pb <- getb h' p; Ok (bn pb) else Ok 0) = Ok pn).
  { destruct (0 <? pos); [|exact Ep]. apply bind_inv in Ep as (p & -> & Ep). apply bind_inv in Ep as (pb & E1 & Ep). destruct (getb_rel H E1) as (pb' & X & (P1 & _)).
    cbn [bind]. rewrite X. cbn [bind]. now rewrite P1. }
  assert (Gn : (if pos <? bn b then do n <- aget (bc b) (pos + 1); do nb <- getb h' n; Ok (bn nb) else Ok 0) = Ok nn).
  { destruct (pos <? bn b); [|exact En]. apply bind_inv in En as (p & -> & En). apply bind_inv in En as (pb & E1 & En). destruct (getb_rel H E1) as (pb' & X & (P1 & _)).
    cbn [bind]. rewrite X. cbn [bind]. now rewrite P1. }
  rewrite Gp, Gn. exact E.
Qed.
End Rel.

(** ** Balancing two leaves in a given direction *)
Section Dir.
Variables (V : Type) (t : ktype) (fp : Z -> Z) (junk : nat -> Z) (M : nat).
Hypothesis HM : 2 <= M.
Hypothesis HW : (N.of_nat M < W)%N.
Hypothesis Ht : (1 <= kt_bits t <= 64)%Z.
Notation leaf := (fleaf V).
Notation fl_rep := (fl_rep t fp M).
Notation fl_repm := (fl_repm (V := V) t fp M).
Notation fa_rep := (fa_rep (V := V) fp M).
Notation O := (fp_ops V t fp junk M).

Definition bal_dir (dir : bool) (donor recv : leaf) : res (leaf * leaf) :=
  let dn := fl_count donor in let rn := fl_count recv in
  let balancedNum := (dn + rn) / 2 in
  if dn <? balancedNum then UB else
  let toMove := dn - balancedNum in
  if toMove =? 0 then Ok (donor, recv) else
  for_up 0 toMove (fun _ => fl_move fp M (if dir then fl_maxpos t M else fl_minpos t M)) (donor, recv).

Lemma bal_slots dl rl d0 r0 : fl_count dl <> (fl_count dl + fl_count rl) / 2 -> aget (fk dl) 0 = Ok d0 -> aget (fk rl) 0 = Ok r0 ->
  fl_balance t fp M dl rl = bal_dir (d0 <? r0)%Z dl rl.
Proof.
  clear junk HM HW Ht. intros H E0 E1. unfold fl_balance, bal_dir. cbv zeta. destruct (_ <? _) eqn:EL; [reflexivity|]. apply Nat.ltb_ge in EL.
  destruct (Nat.eqb_spec (fl_count dl - (fl_count dl + fl_count rl) / 2) 0); [lia|]. rewrite E0, E1. reflexivity.
Qed.

Lemma fl_rep_same l (sl : list (option (Z * V))) es : fa_rep l sl -> Permutation (somes sl) es -> sorted es -> Forall (kt_in t) (keys es) -> fl_rep l es.
Proof. intros H1 H2 H3 H4. unfold FLeafProofs.fl_rep. splits; auto. exists sl. auto. Qed.

(** [e1] are the smaller and [e2] the larger entries of the donor *)
Lemma bal_dir_ok dir (dl rl : leaf) ed er : fl_repm dl ed -> fl_repm rl er -> sorted (ed ++ er) \/ sorted (er ++ ed) ->
  length er < length ed -> 1 < length ed ->
  exists d' r' e1 e2, bal_dir dir dl rl = Ok (d', r') /\ ed = e1 ++ e2 /\ e1 <> [] /\ e2 <> [] /\
    length (if dir then e1 else e2) = (length ed + length er) / 2 /\ fl_repm d' (if dir then e1 else e2) /\
    forall em, Permutation em ((if dir then e2 else e1) ++ er) -> sorted em -> fl_repm r' em.
Proof.
  clear junk HM Ht. intros [(Sd & Kd & sd & Pd & Rd) Zd] [(Sr & Kr & sr & Pr & Rr) Zr] HS HL H1.
  pose proof (Permutation_length Pd) as PLd. pose proof (Permutation_length Pr) as PLr.
  unfold bal_dir. cbv zeta. rewrite (fl_count_ok HW Rd), (fl_count_ok HW Rr), PLd, PLr. set (bal := (length ed + length er) / 2).
  assert (Hbal : 2 * bal <= length ed + length er < 2 * bal + 2) by (unfold bal; lia).
  destruct (Nat.ltb_spec (length ed) bal) as [|_]; [lia|].
  destruct (Nat.eqb_spec (length ed - bal) 0) as [|_]; [lia|].
  pose proof (somes_length sd) as LSd. pose proof Rd as (LLd & _).
  assert (FK : forall em a b, Permutation em (a ++ er) -> ed = a ++ b \/ ed = b ++ a -> Forall (kt_in t) (keys em) /\ Forall (fun k => k < kt_max t)%Z (keys em)).
  { intros em a b PE EE. assert (HA : Forall (kt_in t) (keys a) /\ Forall (fun k => k < kt_max t)%Z (keys a)).
    { destruct EE as [EE|EE]; rewrite EE, keys_app, Forall_app in Kd, Zd; tauto. }
    split; (eapply Permutation_Forall; [apply Permutation_sym, perm_keys, PE|]); rewrite keys_app, Forall_app; tauto. }
  destruct dir.
  - destruct (@fl_moves V fp M Z.gtb (kt_min t) order_gtb (length ed - bal) 0 dl rl sd sr) as (d' & r' & sd' & sr' & mv & E & D' & R' & PR' & PM & LM & BM); auto; try lia.
    { exact (ua_nodup Sd Pd). }
    { intros k Hk. apply kt_max_ext. rewrite Forall_forall in Kd. apply Kd. now apply (keys_perm_in k Pd). }
    assert (PM' : Permutation (somes sd' ++ mv) ed) by (now rewrite PM).
    pose proof (ua_nodup Sd PM') as ND. pose proof (nodup_parts ND) as [N1 N2].
    assert (CX : forall x y, In x (keys (somes sd')) -> In y (keys mv) -> (x < y)%Z).
    { intros x y Hx Hy. specialize (BM x y Hx Hy). destruct (Z.gtb_spec x y); [discriminate|].
      assert (x <> y); [|lia]. intros ->. rewrite keys_app in ND. eapply nodup_sep; eauto. }
    pose proof (perm_sort_app Sd PM' CX) as EE.
    pose proof (Permutation_Forall (Permutation_sym (perm_keys PM')) Kd) as KM. rewrite keys_app, Forall_app in KM. destruct KM as [KM1 KM2].
    pose proof (Permutation_Forall (Permutation_sym (perm_keys PM')) Zd) as ZM. rewrite keys_app, Forall_app in ZM. destruct ZM as [ZM1 ZM2].
    pose proof (Permutation_length PM') as PLM. rewrite app_length in PLM.
    exists d', r', (sortl (somes sd')), (sortl mv). splits; auto.
    + intros X. apply (f_equal (@length _)) in X. rewrite sortl_length in X by assumption. cbn [length] in X. lia.
    + intros X. apply (f_equal (@length _)) in X. rewrite sortl_length in X by assumption. cbn [length] in X. lia.
    + rewrite sortl_length by assumption. lia.
    + split; [now apply fl_rep_sortl|]. eapply Permutation_Forall; [apply Permutation_sym, perm_keys, sortl_perm; auto|auto].
    + intros em PE Se. destruct (FK em (sortl mv) (sortl (somes sd')) PE (or_intror EE)) as [F1 F2]. split; auto.
      eapply fl_rep_same; eauto. rewrite PR', PE, Permutation_app_comm. apply Permutation_app; auto. apply Permutation_sym. now apply sortl_perm.
  - destruct (@fl_moves V fp M Z.ltb (kt_max t) order_ltb (length ed - bal) 0 dl rl sd sr) as (d' & r' & sd' & sr' & mv & E & D' & R' & PR' & PM & LM & BM); auto; try lia.
    { exact (ua_nodup Sd Pd). }
    { intros k Hk. apply kt_min_ext. rewrite Forall_forall in Kd. apply Kd. now apply (keys_perm_in k Pd). }
    assert (PM' : Permutation (mv ++ somes sd') ed) by (now rewrite Permutation_app_comm, PM).
    pose proof (ua_nodup Sd PM') as ND. pose proof (nodup_parts ND) as [N1 N2].
    assert (CX : forall x y, In x (keys mv) -> In y (keys (somes sd')) -> (x < y)%Z).
    { intros x y Hx Hy. specialize (BM y x Hy Hx). apply Z.ltb_ge in BM.
      assert (x <> y); [|lia]. intros ->. rewrite keys_app in ND. eapply nodup_sep; eauto. }
    pose proof (perm_sort_app Sd PM' CX) as EE.
    pose proof (Permutation_Forall (Permutation_sym (perm_keys PM')) Kd) as KM. rewrite keys_app, Forall_app in KM. destruct KM as [KM1 KM2].
    pose proof (Permutation_Forall (Permutation_sym (perm_keys PM')) Zd) as ZM. rewrite keys_app, Forall_app in ZM. destruct ZM as [ZM1 ZM2].
    pose proof (Permutation_length PM') as PLM. rewrite app_length in PLM.
    exists d', r', (sortl mv), (sortl (somes sd')). splits; auto.
    + intros X. apply (f_equal (@length _)) in X. rewrite sortl_length in X by assumption. cbn [length] in X. lia.
    + intros X. apply (f_equal (@length _)) in X. rewrite sortl_length in X by assumption. cbn [length] in X. lia.
    + rewrite sortl_length by assumption. lia.
    + split; [now apply fl_rep_sortl|]. eapply Permutation_Forall; [apply Permutation_sym, perm_keys, sortl_perm; auto|auto].
    + intros em PE Se. destruct (FK em (sortl mv) (sortl (somes sd')) PE (or_introl EE)) as [F1 F2]. split; auto.
      eapply fl_rep_same; eauto. rewrite PR', PE, Permutation_app_comm. apply Permutation_app; auto. apply Permutation_sym. now apply sortl_perm.
Qed.

(** FPTree with balancing in the direction [dir]: right whenever [dir] says on which side the donor is *)
Definition dir_ops (dir : bool) : leafops leaf V :=
  LeafOps (lo_new O) (lo_count O) (lo_lookup O) (lo_insert O) (lo_erase O) (lo_merge O) (bal_dir dir) (lo_minkey O)
          (lo_scan O) (lo_range O) (lo_bpos O) false.

Lemma dir_laws dir : leaf_laws (dir_ops dir) M (M / 2) (fkok t) fl_repm.
Proof. pose proof (flm_laws V fp junk HM HW Ht) as LL. destruct LL. constructor; assumption. Qed.

Lemma dir_core dir : erase_core (dir_ops dir) M fl_repm (fun l es _ => fl_repm l es) (fun b _ _ => b = dir).
Proof.
  pose proof (fl_core V t fp junk HM HW (le_n 6)) as EL. destruct EL as [C1 C2 C3 _ _ C6]. constructor; try assumption.
  - intros dl rl ed er k <- Rd Rr HS _ HL H1. destruct (@bal_dir_ok true dl rl ed er Rd Rr (or_introl HS) HL H1) as (d' & r' & e1 & e2 & E & Ee & _ & _ & Hn & R1 & R2).
    exists d', r', e1, e2. splits; auto. apply R2; auto. rewrite Ee, <- app_assoc in HS. apply sorted_app in HS. tauto.
  - intros dl rl ed er k <- Rd Rr HS _ HL H1. destruct (@bal_dir_ok false dl rl ed er Rd Rr (or_intror HS) HL H1) as (d' & r' & e1 & e2 & E & Ee & _ & _ & Hn & R1 & R2).
    exists d', r', e1, e2. splits; auto. apply R2; [apply Permutation_app_comm|]. rewrite Ee, app_assoc in HS. apply sorted_app in HS. tauto.
Qed.

(** the donor of slots_ok is on the side [dir] *)
Definition slots_dir (dir : bool) (h : heap leaf) (id pos c : nat) : res bool :=
  let middle := (M + 1) / 2 in
  do b <- getb h id;
  do prev <- (if 0 <? pos then do p <- of_opt (hpv h c); do pl <- getl h p; Ok (Some pl) else Ok None);
  let right :=
    if pos <? bn b then
      do n <- of_opt (hnx h c); do nl <- getl h n; Ok (if middle <? fl_count nl then negb dir else true)
    else Ok true in
  match prev with
  | Some pl => if middle <? fl_count pl then Ok dir else right
  | None => right
  end.

Lemma slots_dir_good dir h id pos c : slots_dir dir h id pos c = Ok true -> good M (dir_ops dir) (fun b _ _ => b = dir) h id pos c.
Proof.
  unfold slots_dir. intros E. split; [now left|]. cbv zeta in E. bnd E. rename x into b. unfold getb in E0. destruct (hb h id) as [b'|] eqn:Hb; [|discriminate]. injection E0 as ->.
  bnd E. rename x into pr. rename E0 into Ep. cbn [dir_ops lo_count fp_ops]. split.
  - intros l0 p pl _ Hp Epv Epl HC. destruct (Nat.ltb_spec 0 pos); [|lia].
    rewrite Epv in Ep. cbn [of_opt bind] in Ep. unfold getl in Ep. rewrite Epl in Ep. cbn [of_opt bind] in Ep. injection Ep as <-.
    destruct (Nat.ltb_spec ((M + 1) / 2) (fl_count pl)); [|lia]. now injection E as ->.
  - intros l0 n nl b0 _ [= <-] Hp Enx Enl HC HA.
    assert (E' : (if pos <? bn b then do n <- of_opt (hnx h c); do nl <- getl h n; Ok (if (M + 1) / 2 <? fl_count nl then negb dir else true) else Ok true) = Ok true).
    { destruct pr as [pl|]; [|exact E]. destruct (Nat.ltb_spec 0 pos) as [H0|H0]; [|discriminate].
      destruct HA as [HA|(p & pl' & Epv & Epl & HA)]; [lia|].
      rewrite Epv in Ep. cbn [of_opt bind] in Ep. unfold getl in Ep. rewrite Epl in Ep. cbn [of_opt bind] in Ep. injection Ep as <-.
      destruct (Nat.ltb_spec ((M + 1) / 2) (fl_count pl')); [lia|]. exact E. }
    destruct (Nat.ltb_spec pos (bn b)); [|lia]. rewrite Enx in E'. unfold getl in E'. cbn [of_opt bind] in E'. rewrite Enl in E'. cbn [of_opt bind] in E'.
    destruct (Nat.ltb_spec ((M + 1) / 2) (fl_count nl)); [|lia]. injection E' as E'. now destruct dir.
Qed.

Lemma slots_dir_ex h id pos c : slots_ok M h id pos c = Ok false -> exists dir, slots_dir dir h id pos c = Ok true.
Proof.
  unfold slots_ok, slots_dir. cbv zeta. intros E. bnd E. cbn [bind]. bnd E. bnd E. cbn [bind].
  assert (RR : forall (e : res bool), (if pos <? bn x then do n <- of_opt (hnx h c); do nl <- getl h n;
        if (M + 1) / 2 <? fl_count nl then do d0 <- aget (fk nl) 0; do r0 <- aget (fk x0) 0; Ok (negb (d0 <? r0)%Z) else Ok true else Ok true) = Ok false ->
      (if pos <? bn x then do n <- of_opt (hnx h c); do nl <- getl h n; Ok (if (M + 1) / 2 <? fl_count nl then negb false else true) else Ok true) = Ok true).
  { intros _ X. destruct (pos <? bn x); [|discriminate]. bnd X. cbn [bind]. bnd X. cbn [bind]. match goal with |- Ok (if ?b then _ else _) = _ => destruct b end; reflexivity. }
  destruct x1 as [pl|].
  - destruct (_ <? fl_count pl); [exists true; reflexivity|exists false; apply RR; [exact (Ok true)|exact E]].
  - exists false. apply RR; [exact (Ok true)|exact E].
Qed.

Lemma guard_dir_ex d : forall h id k, leaf_guard M O (slots_ok M) h (S d) id k = Ok false -> exists dir, leaf_guard M O (slots_dir dir) h (S d) id k = Ok true.
Proof.
  induction d as [|d IH]; intros h id k E.
  - cbn [leaf_guard] in *. bnd E. cbn [bind]. bnd E. cbn [bind]. bnd E. cbn [bind]. bnd E. cbn [bind]. bnd E. cbn [bind].
    destruct (_ <? _); [|discriminate E]. now apply slots_dir_ex.
  - rewrite leaf_guard_S in E. bnd E. bnd E. bnd E. destruct (IH _ _ _ E) as (dir & HD). exists dir. rewrite leaf_guard_S.
    repeat match goal with X : _ = Ok _ |- _ => rewrite X; clear X; cbn [bind] end. reflexivity.
Qed.
End Dir.

(** ** The two directions compared *)
Section FX.
Variables (V : Type) (t : ktype) (fp : Z -> Z) (junk : nat -> Z) (N M : nat).
Hypothesis HM : 2 <= M.
Hypothesis HW : (N.of_nat M < W)%N.
Hypothesis Ht : (1 <= kt_bits t <= 64)%Z.
Notation leaf := (fleaf V).
Notation fl_repm := (fl_repm (V := V) t fp M).
Notation O := (fp_ops V t fp junk M).
Notation LL := (flm_laws V fp junk HM HW Ht).
Notation EL := (fl_core V t fp junk HM HW (le_n 6)).
Notation DO := (dir_ops V t fp junk M).
Notation bal_dir := (bal_dir (V := V) t fp M).

Lemma get_in y (es : list (Z * V)) : sorted es -> In y (keys es) -> exists v, get y es = Some v.
Proof. intros HS HI. destruct (get y es) as [v|] eqn:E; [eauto|]. exfalso. apply get_none in E; auto. Qed.

(** the first and the last key of the donor *)
Lemma ends (ed e1 e2 : list (Z * V)) : sorted ed -> ed = e1 ++ e2 -> e1 <> [] -> e2 <> [] ->
  exists sb sg y w1 w2 e1' e2', e1 = (sb, w1) :: e1' /\ e2 = (sg, w2) :: e2' /\ In y (keys e2) /\ ~ In y (keys e1) /\ (sb < sg <= y)%Z /\
    hd_error (keys ed) = Some sb /\ last (keys ed) 0%Z = y.
Proof.
  intros HS -> N1 N2. destruct e1 as [|[sb w1] e1']; [congruence|]. destruct e2 as [|[sg w2] e2']; [congruence|].
  exists sb, sg, (last (keys (((sb, w1) :: e1') ++ (sg, w2) :: e2')) 0%Z), w1, w2, e1', e2'.
  assert (HL : In (last (keys (((sb, w1) :: e1') ++ (sg, w2) :: e2')) 0%Z) (keys ((sg, w2) :: e2'))).
  { rewrite keys_app. clear. generalize (keys ((sb, w1) :: e1')). intros q. cbn [keys map fst]. generalize (map fst e2'). intros r. clear.
    revert sg. induction q as [|x q IH]; intros sg.
    - cbn [app]. clear. revert sg. induction r as [|z r IH]; intros sg; [left; reflexivity|right]. exact (IH z).
    - cbn [app]. specialize (IH sg). destruct (q ++ sg :: r) eqn:E; [destruct q; discriminate|]. exact IH. }
  apply sorted_app in HS as (S1 & S2 & S12).
  splits; auto.
  - intros X. specialize (S12 _ _ X HL). lia.
  - apply S12; cbn [keys map fst In]; auto.
  - clear - HL S2. set (y := last _ _) in *. clearbody y. cbn [keys map fst In] in HL.
    destruct HL as [->|HL]; [lia|]. unfold sorted in S2. cbn [keys map fst] in S2. apply ssorted_cons in S2 as [_ S2]. rewrite agt_in in S2. specialize (S2 y HL). lia.
Qed.

Lemma look_in l es y : fl_repm l es -> In y (keys es) -> exists v, lo_lookup O l y = Ok (Some v).
Proof. intros R H. rewrite (law_lookup LL y R). destruct (get_in (law_sorted LL R) H) as (v & ->). eauto. Qed.
Lemma look_out l es y : fl_repm l es -> ~ In y (keys es) -> lo_lookup O l y = Ok None.
Proof. intros R H. rewrite (law_lookup LL y R). f_equal. apply get_none; auto. exact (law_sorted LL R). Qed.

Lemma pair_left dl rl ed er : fl_repm dl ed -> fl_repm rl er -> sorted (ed ++ er) -> length er < length ed -> 1 < length ed ->
  exists d1 r1 d2 r2 sg sb y, bal_dir true dl rl = Ok (d1, r1) /\ bal_dir false dl rl = Ok (d2, r2) /\
    lo_minkey O r1 = Ok sg /\ lo_minkey O r2 = Ok sb /\ (sb < sg <= y)%Z /\ In sb (keys ed) /\ In sg (keys ed) /\
    (exists v, lo_lookup O r1 y = Ok (Some v)) /\ lo_lookup O r2 y = Ok None.
Proof.
  intros Rd Rr HS HL H1. pose proof HS as HS'. apply sorted_app in HS' as (Sd & _ & SX).
  destruct (bal_dir_ok HW true Rd Rr (or_introl HS) HL H1) as (d1 & r1 & e1 & e2 & E1 & Ee & X1 & X2 & _ & _ & R1).
  destruct (bal_dir_ok HW false Rd Rr (or_introl HS) HL H1) as (d2 & r2 & f1 & f2 & E2 & Ef & Y1 & Y2 & _ & _ & R2).
  destruct (ends Sd Ee X1 X2) as (sb & sg & y & w1 & w2 & e1' & e2' & F1 & F2 & I1 & I2 & Hlt & Hh & Hl).
  destruct (ends Sd Ef Y1 Y2) as (sb' & sg' & y' & w1' & w2' & f1' & f2' & G1 & G2 & J1 & J2 & _ & Hh' & Hl').
  assert (sb' = sb) as -> by congruence. assert (y' = y) as -> by congruence.
  assert (Q1 : fl_repm r1 (e2 ++ er)) by (apply R1; auto; rewrite Ee, <- app_assoc in HS; apply sorted_app in HS; tauto).
  assert (Q2 : fl_repm r2 (f1 ++ er)).
  { apply R2; auto. apply sorted_app. rewrite Ef in Sd. apply sorted_app in Sd as (Sf & _ & _). apply sorted_app in HS as (_ & Sr & _).
    splits; auto. intros a b Ha Hb. apply SX; auto. rewrite Ef, keys_app, in_app_iff. now left. }
  assert (Hy : ~ In y (keys er)) by (intros X; assert (y < y)%Z; [apply SX; auto; rewrite Ee, keys_app, in_app_iff; now right|lia]).
  destruct Hlt. exists d1, r1, d2, r2, sg, sb, y. splits; auto.
  - rewrite F2 in Q1. exact (law_minkey EL Q1).
  - rewrite G1 in Q2. exact (law_minkey EL Q2).
  - rewrite Ee, F1. simpl. auto.
  - rewrite Ee, F2, keys_app, in_app_iff. right. simpl. auto.
  - apply (look_in Q1). rewrite keys_app, in_app_iff. auto.
  - apply (look_out Q2). rewrite keys_app, in_app_iff. tauto.
Qed.

Lemma pair_right dl rl ed er : fl_repm dl ed -> fl_repm rl er -> sorted (er ++ ed) -> length er < length ed -> 1 < length ed ->
  exists d1 r1 d2 r2 sg sb y, bal_dir false dl rl = Ok (d1, r1) /\ bal_dir true dl rl = Ok (d2, r2) /\
    lo_minkey O d1 = Ok sg /\ lo_minkey O d2 = Ok sb /\ (sb < sg <= y)%Z /\ In sb (keys ed) /\ In sg (keys ed) /\
    (exists v, lo_lookup O d1 y = Ok (Some v)) /\ lo_lookup O d2 y = Ok None.
Proof.
  intros Rd Rr HS HL H1. pose proof HS as HS'. apply sorted_app in HS' as (_ & Sd & SX).
  destruct (bal_dir_ok HW false Rd Rr (or_intror HS) HL H1) as (d1 & r1 & e1 & e2 & E1 & Ee & X1 & X2 & _ & R1 & _).
  destruct (bal_dir_ok HW true Rd Rr (or_intror HS) HL H1) as (d2 & r2 & f1 & f2 & E2 & Ef & Y1 & Y2 & _ & R2 & _).
  destruct (ends Sd Ee X1 X2) as (sb & sg & y & w1 & w2 & e1' & e2' & F1 & F2 & I1 & I2 & Hlt & Hh & Hl).
  destruct (ends Sd Ef Y1 Y2) as (sb' & sg' & y' & w1' & w2' & f1' & f2' & G1 & G2 & J1 & J2 & _ & Hh' & Hl').
  assert (sb' = sb) as -> by congruence. assert (y' = y) as -> by congruence.
  destruct Hlt. exists d1, r1, d2, r2, sg, sb, y. splits; auto.
  - rewrite F2 in R1. exact (law_minkey EL R1).
  - rewrite G1 in R2. exact (law_minkey EL R2).
  - rewrite Ee, F1. simpl. auto.
  - rewrite Ee, F2, keys_app, in_app_iff. right. simpl. auto.
  - exact (look_in R1 I1).
  - exact (look_out R2 J2).
Qed.

Notation minL := (M / 2).
Notation minB := ((N + 1) / 2 - 1).
Notation wf := (wf (V := V) N M minL minB).
Notation inv := (inv N fl_repm).
Notation tinv := (tinv N M fl_repm minL minB).
Notation tinvf := (tinvf N M fl_repm minL minB).
Hypothesis HN : 5 <= N.
Definition Kx (sg sb x x' : Z) : Prop := x' = x \/ (x = sg /\ x' = sb).
Lemma Kx_refl sg sb x : Kx sg sb x x. Proof. now left. Qed.
Notation HRx sg sb := (HR (Kx sg sb)).

Definition damaged (t0 t1 t2 : tree leaf) (ids : list nat) lo hi : Prop :=
  exists y sg sb j l1 l2, HRx sg sb (th t1) (th t2) /\ troot t2 = troot t1 /\ tdepth t2 = tdepth t1 /\
    (sb < sg <= y)%Z /\ inb lo hi sb /\ inb lo hi sg /\ hnx (th t1) = hnx (th t0) /\ In j ids /\ hl (th t1) j = Some l1 /\ hl (th t2) j = Some l2 /\
    (exists v, lo_lookup O l1 y = Ok (Some v)) /\ lo_lookup O l2 y = Ok None.

Lemma aset_key2 (b : branch) (a : list Z) x bb (cs : list nat) y : brep N b (a ++ x :: bb) cs -> exists ks, aset (bk b) (length a) y = Ok ks.
Proof. clear. intros (_ & _ & _ & PK & _). destruct (@pre_set Z (bk b) a x bb (length a) y PK eq_refl) as (ks & E & _). eauto. Qed.

Lemma leaf_rel (t0 t1 : tree leaf) A i ks (cs : list (gt V)) B m lo hi k r dir :
  wf m 1 lo hi (GB i ks cs) -> inb lo hi k -> inv (th t0) A [GB i ks cs] B ->
  (forall l es, fl_repm l es -> get k es = get k (ents cs) -> exists l', lo_erase O l k = Ok (r, l') /\ fl_repm l' (del k es)) ->
  leaf_guard M O (slots_ok M) (th t0) 1 i k = Ok false -> leaf_guard M O (slots_dir M dir) (th t0) 1 i k = Ok true ->
  erase_branch N M (DO dir) t0 1 i k = Ok (t1, r) ->
  exists t2, erase_branch N M O t0 1 i k = Ok (t2, r) /\ damaged t0 t1 t2 (lids cs) lo hi.
Proof.
  intros HWf Hk HI ER G GD H. destruct HWf as [HC HK]. cbn [mn] in HK.
  apply inv_GB in HI as (HI & Hfi & Hni & (b & Eb & Hb)). cbn [fst snd] in *.
  destruct (route HK Hk) as (a & bb & CA & c & CB & -> & -> & LA & LB & Ha & Hbb & KL & Rc & Bc & KR & Hkc).
  destruct (kids_sorted HK) as [HS HFB].
  destruct (@wf0_leaf V N M minL minB _ _ _ _ Rc) as (j & es & -> & Ss & Fs & Cs).
  change (CA ++ GL j es :: CB) with (CA ++ [GL j es] ++ CB) in *.
  pose proof (inv_sub HI) as HIc.
  destruct (ctx_ents (@wf_okc V N M minL minB minL 0) KL KR Hkc) as [HA HBB].
  destruct (inv_GL HIc) as (l & El & Hl & _).
  assert (EG : get k (ents (CA ++ [GL j es] ++ CB)) = get k es) by (rewrite !ents_app, ents_GL; rewrite get_app_lt by assumption; now rewrite get_app_gt).
  destruct (ER l es Hl ltac:(now rewrite EG)) as (l' & EE & Hl').
  assert (Hbn : bn b = length (a ++ bb)) by apply Hb.
  (* the position and the erased leaf are the same for all of them *)
  cbn [leaf_guard erase_branch dir_ops lo_bpos lo_count] in G, GD, H |- *. change (erase_leaf (DO dir)) with (erase_leaf O) in H.
  unfold getb in G at 1; unfold getb in GD at 1; unfold getb in H at 1; unfold getb at 1. rewrite Eb in G, GD, H |- *. cbn [of_opt bind] in G, GD, H |- *.
  pose proof (@bpos_ok _ V N M O fl_repm minL _ LL b a bb _ k Hb HS Ha Hbb) as EP. cbn [fp_ops lo_bpos] in EP, G, GD, H |- *. rewrite EP in G, GD, H |- *. cbn [bind] in G, GD, H |- *.
  pose proof (@kid_at V N b _ CA (GL j es) CB (length a) Hb (eq_sym LA)) as EC. rewrite EC in G, GD, H |- *. cbn [bind gid] in G, GD, H |- *.
  assert (EX : erase_leaf O (th t0) j k = Ok (r, set_leaf (th t0) j l')) by (unfold erase_leaf, getl; rewrite El; cbn [of_opt bind]; rewrite EE; reflexivity).
  rewrite EX in G, GD, H |- *. cbn [bind fst snd] in G, GD, H |- *.
  set (h1 := set_leaf (th t0) j l') in *.
  assert (EJ : hl h1 j = Some l') by (unfold h1; cbn [set_leaf hl]; apply upd_same').
  unfold getl in G at 1; unfold getl in GD at 1; unfold getl in H at 1; unfold getl at 1. rewrite EJ in G, GD, H |- *. cbn [of_opt bind] in G, GD, H |- *.
  assert (ECn : fl_count l' = length (del k es)) by exact (law_count LL Hl').
  change (lo_count O l') with (fl_count l') in G, GD, H |- *. rewrite ECn in G, GD, H |- *. destruct (Nat.ltb_spec (length (del k es)) ((M + 1) / 2)) as [HU|HU]; [|discriminate G].
  bnd H. injection H as ->. rename E into EU.
  pose proof (sorted_del k Ss) as Sdel.
  assert (Fdel : Forall (inb (lb lo a) (hbd bb hi)) (keys (del k es))) by (rewrite Forall_forall in *; intros z Hz; apply Fs; eapply del_in_keys; eauto).
  assert (WK : forall u v z, inb u v z -> (u = lo \/ exists x, u = Some x /\ In x (a ++ bb)) -> (v = hi \/ exists x, v = Some x /\ In x (a ++ bb)) -> inb lo hi z).
  { intros u v z Hz HuL HvL. rewrite Forall_forall in HFB. eapply inb_weak; [exact Hz| |].
    - intros q Hq. destruct HuL as [->|(x & -> & Hx)]; auto. apply HFB in Hx as [Hx _]. eapply bl_lob; eauto.
    - intros q Hq. destruct HvL as [->|(x & -> & Hx)]; auto. apply HFB in Hx as [_ Hx]. eapply bl_hib; eauto. }
  unfold slots_ok in G. unfold slots_dir in GD. unfold underflow_leaf in EU |- *. cbv zeta in G, GD, EU |- *. cbn [th troot tdepth dir_ops lo_count lo_minkey] in EU |- *.
  assert (Eb1 : getb h1 i = Ok b) by (unfold getb, h1; cbn [set_leaf hb]; now rewrite Eb).
  rewrite Eb1 in G, GD, EU |- *. cbn [bind] in G, GD, EU |- *.
  assert (Ej1 : getl h1 j = Ok l') by (unfold getl; now rewrite EJ).
  rewrite Ej1 in G, EU |- *. cbn [bind] in G, EU |- *.
  (* the case of a right donor *)
  assert (RB : forall y b0, bb = y :: b0 -> forall n en ln CB0, CB = GL n en :: CB0 -> hnx (th t0) j = Some n -> hl (th t0) n = Some ln -> fl_repm ln en ->
     sorted en -> Forall (inb (Some y) (hbd b0 hi)) (keys en) -> n <> j -> (M + 1) / 2 < length en ->
     (do d0 <- aget (fk ln) 0; do r0 <- aget (fk l') 0; Ok (negb (d0 <? r0)%Z)) = Ok false -> dir = false ->
     (do h2 <- balance_leaf (DO dir) h1 n j; do nl <- getl h2 n; do kk <- lo_minkey O nl; do ks <- aset (bk b) (length a) kk;
        Ok (Tree (set_branch h2 i (Branch (bn b) ks (bc b))) (troot t0) (tdepth t0))) = Ok t1 ->
     exists t2, (do t' <- (do h2 <- balance_leaf O h1 n j; do nl <- getl h2 n; do kk <- lo_minkey O nl; do ks <- aset (bk b) (length a) kk;
        Ok (Tree (set_branch h2 i (Branch (bn b) ks (bc b))) (troot t0) (tdepth t0))); Ok (t', r)) = Ok (t2, r) /\ damaged t0 t1 t2 (lids (CA ++ [GL j es] ++ CB)) lo hi).
  { intros y b0 -> n en ln CB0 -> EN Eln Rn Sn Fn Nn HG GF -> HT.
    assert (SS : sorted (del k es ++ en)) by (eapply sorted_pair; [exact Sdel|exact Sn|exact Fdel|exact Fn]).
    destruct (pair_right Rn Hl' SS ltac:(lia) ltac:(lia)) as (d1 & r1 & d2 & r2 & sg & sb & z & B1 & B2 & M1 & M2 & Hlt & I1 & I2 & L1 & L2).
    bnd GF. rename x into d0. rename E into E0. bnd GF. rename x into r0. rename E into E1. injection GF as GF. apply negb_false_iff in GF.
    assert (B2' : lo_balance O ln l' = Ok (d2, r2)).
    { cbn [fp_ops lo_balance]. rewrite (fun X => bal_slots t fp M X E0 E1), GF; auto. pose proof (law_count LL Rn) as Q. cbn [fp_ops lo_count] in Q. rewrite Q, ECn. lia. }
    assert (En1 : getl h1 n = Ok ln) by (unfold getl, h1; cbn [set_leaf hl]; rewrite upd_other by exact Nn; now rewrite Eln).
    unfold balance_leaf in HT |- *. rewrite En1, Ej1 in HT |- *. cbn [bind] in HT |- *. rewrite B2'. cbn [dir_ops lo_balance] in HT. rewrite B1 in HT. cbn [bind fst snd] in HT |- *.
    assert (GN : forall d' r', getl (set_leaf (set_leaf h1 n d') j r') n = Ok d').
    { intros d' r'. unfold getl. cbn [set_leaf hl]. rewrite upd_other by exact Nn. now rewrite upd_same'. }
    rewrite GN in HT |- *. cbn [bind] in HT |- *. rewrite M1 in HT. rewrite M2. cbn [bind] in HT |- *.
    destruct (@aset_key2 b a y b0 _ sg Hb) as (ks1 & K1). destruct (@aset_key2 b a y b0 _ sb Hb) as (ks2 & K2).
    rewrite K1 in HT. rewrite K2. cbn [bind] in HT |- *. injection HT as <-. eexists. split; [reflexivity|].
    destruct Hlt. exists z, sg, sb, n, d1, d2. cbn [th troot tdepth]. splits; auto.
    - apply set_branch_rel.
      + apply HR_refl; [apply Kx_refl|reflexivity].
      + unfold BR. cbn [bn bc bk]. splits; auto.
        destruct (@aset_rel (Kx sg sb) (bk b) (bk b) (length a) sg sb ks1 (@AR_refl (Kx sg sb) (Kx_refl sg sb) _) (or_intror (conj eq_refl eq_refl)) K1) as (q & Eq & Hq).
        rewrite K2 in Eq. injection Eq as <-. exact Hq.
    - rewrite Forall_forall in Fn. apply Fn in I1. eapply WK; [exact I1| |].
      + right. exists y. split; auto. rewrite in_app_iff. right. now left.
      + destruct b0 as [|w b0]; [now left|]. right. exists w. split; auto. rewrite in_app_iff. right. right. now left.
    - rewrite Forall_forall in Fn. apply Fn in I2. eapply WK; [exact I2| |].
      + right. exists y. split; auto. rewrite in_app_iff. right. now left.
      + destruct b0 as [|w b0]; [now left|]. right. exists w. split; auto. rewrite in_app_iff. right. right. now left.
    - rewrite !lids_app, !in_app_iff. right. right. left. reflexivity.
    - cbn [set_branch set_leaf hl]. rewrite upd_other by exact Nn. apply upd_same'.
    - cbn [set_branch set_leaf hl]. rewrite upd_other by exact Nn. apply upd_same'. }
  assert (NX : forall y b0, bb = y :: b0 -> exists n en CB0 ln, CB = GL n en :: CB0 /\ sorted en /\
     Forall (inb (Some y) (hbd b0 hi)) (keys en) /\ hnx (th t0) j = Some n /\ hl (th t0) n = Some ln /\ fl_repm ln en /\ n <> j).
  { intros y b0 ->. destruct CB as [|g CB0]; [discriminate|]. cbn [kr] in KR. destruct KR as (By & Wg & KR).
    apply (@wf0_leaf V N M minL minB) in Wg as (n & en & -> & Sn & Fn & Cn).
    change ([GL j es] ++ GL n en :: CB0) with ([GL j es; GL n en] ++ CB0) in HI. apply inv_sub in HI.
    destruct (inv_pair HI) as (u1 & u2 & El1 & Hl1 & El2 & Hl2 & Hne & _ & _ & _ & _ & _ & _ & _ & _ & P1 & N1 & P2 & N2 & _).
    exists n, en, CB0, u2. splits; auto. }
  (* no left donor: the right leaf must be the one *)
  assert (NR : (if length a <? bn b then do n <- of_opt (hnx h1 j); do nl <- getl h1 n;
        if (M + 1) / 2 <? fl_count nl then do d0 <- aget (fk nl) 0; do r0 <- aget (fk l') 0; Ok (negb (d0 <? r0)%Z) else Ok true else Ok true) = Ok false ->
      (if length a <? bn b then do n <- of_opt (hnx h1 j); do nl <- getl h1 n; Ok (if (M + 1) / 2 <? fl_count nl then negb dir else true) else Ok true) = Ok true ->
      exists y b0 n en ln CB0, bb = y :: b0 /\ CB = GL n en :: CB0 /\ hnx (th t0) j = Some n /\ hl (th t0) n = Some ln /\ getl h1 n = Ok ln /\ fl_repm ln en /\
        sorted en /\ Forall (inb (Some y) (hbd b0 hi)) (keys en) /\ n <> j /\ fl_count ln = length en /\ (M + 1) / 2 < length en /\ length a < bn b /\
        (do d0 <- aget (fk ln) 0; do r0 <- aget (fk l') 0; Ok (negb (d0 <? r0)%Z)) = Ok false /\ dir = false).
  { intros X1 X2. destruct (Nat.ltb_spec (length a) (bn b)) as [HLb|]; [|discriminate X1]. rewrite Hbn, app_length in HLb.
    destruct bb as [|y b0]; [cbn [length] in HLb; lia|]. destruct (NX y b0 eq_refl) as (n & en & CB0 & ln & -> & Sn & Fn & EN & Eln & Rn & Nn).
    assert (En1 : getl h1 n = Ok ln) by (unfold getl, h1; cbn [set_leaf hl]; rewrite upd_other by exact Nn; now rewrite Eln).
    assert (EN1 : hnx h1 j = Some n) by exact EN. rewrite EN1 in X1, X2. cbn [of_opt bind] in X1, X2. rewrite En1 in X1, X2. cbn [bind] in X1, X2.
    pose proof (law_count LL Rn) as Q. cbn [fp_ops lo_count] in Q. rewrite Q in X1, X2. destruct (Nat.ltb_spec ((M + 1) / 2) (length en)) as [HG|]; [|discriminate X1].
    exists y, b0, n, en, ln, CB0. splits; auto; [rewrite Hbn, app_length; lia|]. destruct dir; [discriminate X2|reflexivity]. }
  change (hnx h1 j) with (hnx (th t0) j) in *. change (hpv h1 j) with (hpv (th t0) j) in *.
  destruct (rev_case a) as [->|(a0 & x & ->)].
  - change (0 <? length (@nil Z)) with false in *. cbn [andb bind] in G, GD, EU |- *.
    destruct (NR G GD) as (y & b0 & n & en & ln & CB0 & -> & -> & EN & Eln & En1 & Rn & Sn & Fn & Nn & Q & HG & HLb & GF & ED).
    rewrite EN in EU |- *. cbn [of_opt] in EU |- *. apply Nat.ltb_lt in HLb. rewrite HLb in EU |- *. cbn [bind andb] in EU |- *. rewrite En1 in EU |- *. cbn [bind fp_ops lo_count] in EU |- *.
    rewrite Q in EU |- *. destruct (Nat.ltb_spec ((M + 1) / 2) (length en)); [|lia]. cbn [bind] in EU |- *.
    exact (RB y b0 eq_refl n en ln CB0 eq_refl EN Eln Rn Sn Fn Nn HG GF ED EU).
  - rewrite app_length in LA. cbn [length] in LA.
    destruct (rev_case CA) as [->|(CA0 & g & ->)]; [cbn [length] in LA; lia|].
    rewrite app_length in LA. cbn [length] in LA. assert (LA0 : length CA0 = length a0) by lia.
    apply kl_snoc in KL; [|exact LA0]. destruct KL as (KL & Bx & Wg).
    apply (@wf0_leaf V N M minL minB) in Wg as (p & ep & -> & Sp & Fp & Cp). rewrite lb_snoc in *.
    assert (I2 : inv (th t0) A (CA0 ++ [GL p ep; GL j es] ++ CB) B) by (rewrite <- app_assoc in HI; exact HI).
    pose proof (inv_sub I2) as IP.
    destruct (inv_pair IP) as (lp & l2 & Elp & Hlp & El2 & Hl2 & Hne & _ & _ & _ & _ & _ & _ & _ & _ & P1 & N1 & P2 & N2 & _).
    rewrite El in El2. injection El2 as <-.
    assert (Ep1 : getl h1 p = Ok lp) by (unfold getl, h1; cbn [set_leaf hl]; rewrite upd_other by exact Hne; now rewrite Elp).
    assert (HP : (0 <? length (a0 ++ [x])) = true) by (apply Nat.ltb_lt; rewrite app_length; cbn [length]; lia).
    rewrite HP in G, GD, EU |- *. rewrite P2 in G, GD, EU |- *. cbn [of_opt bind andb] in G, GD, EU |- *. rewrite Ep1 in G, GD, EU |- *. cbn [bind fp_ops lo_count] in G, GD, EU |- *.
    pose proof (law_count LL Hlp) as Q. cbn [fp_ops lo_count] in Q. rewrite Q in G, GD, EU |- *.
    destruct (Nat.ltb_spec ((M + 1) / 2) (length ep)) as [HG|HG].
    + (* left donor *)
      injection GD as ->. cbn [bind] in EU |- *.
      assert (SS : sorted (ep ++ del k es)) by (eapply sorted_pair; [exact Sp|exact Sdel|exact Fp|exact Fdel]).
      destruct (pair_left Hlp Hl' SS ltac:(lia) ltac:(lia)) as (d1 & r1 & d2 & r2 & sg & sb & z & B1 & B2 & M1 & M2 & Hlt & I1 & I3 & L1 & L2).
      bnd G. rename x0 into d0. rename E into E0. bnd G. rename x0 into r0. rename E into E1. injection G as G.
      assert (B2' : lo_balance O lp l' = Ok (d2, r2)).
      { cbn [fp_ops lo_balance]. rewrite (fun X => bal_slots t fp M X E0 E1), G; auto. rewrite Q, ECn. lia. }
      unfold balance_leaf in EU |- *. rewrite Ep1, Ej1 in EU |- *. cbn [bind] in EU |- *. rewrite B2'. cbn [dir_ops lo_balance] in EU. rewrite B1 in EU. cbn [bind fst snd] in EU |- *.
      assert (GN : forall d' r', getl (set_leaf (set_leaf h1 p d') j r') j = Ok r') by (intros d' r'; unfold getl; cbn [set_leaf hl]; now rewrite upd_same').
      rewrite GN in EU |- *. cbn [bind] in EU |- *. rewrite M1 in EU. rewrite M2. cbn [bind] in EU |- *.
      replace (length (a0 ++ [x]) - 1) with (length a0) in EU |- * by (rewrite app_length; cbn [length]; lia).
      assert (Hb2 : brep N b (a0 ++ x :: bb) (map (@gid V) (CA0 ++ [GL p ep; GL j es] ++ CB))) by (rewrite <- !app_assoc in Hb; exact Hb).
      destruct (@aset_key2 b a0 x bb _ sg Hb2) as (ks1 & K1). destruct (@aset_key2 b a0 x bb _ sb Hb2) as (ks2 & K2).
      rewrite K1 in EU. rewrite K2. cbn [bind] in EU |- *. injection EU as <-. eexists. split; [reflexivity|].
      destruct Hlt. exists z, sg, sb, j, r1, r2. cbn [th troot tdepth]. splits; auto.
      * apply set_branch_rel.
        -- apply HR_refl; [apply Kx_refl|reflexivity].
        -- unfold BR. cbn [bn bc bk]. splits; auto.
           destruct (@aset_rel (Kx sg sb) (bk b) (bk b) (length a0) sg sb ks1 (@AR_refl (Kx sg sb) (Kx_refl sg sb) _) (or_intror (conj eq_refl eq_refl)) K1) as (q & Eq & Hq).
           rewrite K2 in Eq. injection Eq as <-. exact Hq.
      * rewrite Forall_forall in Fp. apply Fp in I1. eapply WK; [exact I1| |].
        -- destruct (rev_case a0) as [->|(a1 & w & ->)]; [now left|]. right. exists w. rewrite lb_snoc. split; auto. rewrite !in_app_iff. left. left. right. now left.
        -- right. exists x. split; auto. rewrite !in_app_iff. left. right. now left.
      * rewrite Forall_forall in Fp. apply Fp in I3. eapply WK; [exact I3| |].
        -- destruct (rev_case a0) as [->|(a1 & w & ->)]; [now left|]. right. exists w. rewrite lb_snoc. split; auto. rewrite !in_app_iff. left. left. right. now left.
        -- right. exists x. split; auto. rewrite !in_app_iff. left. right. now left.
      * rewrite !lids_app, !in_app_iff. right. left. now left.
      * cbn [set_branch set_leaf hl]. apply upd_same'.
      * cbn [set_branch set_leaf hl]. apply upd_same'.
    + destruct (NR G GD) as (y & b0 & n & en & ln & CB0 & -> & -> & EN & Eln & En1 & Rn & Sn & Fn & Nn & Qn & HGn & HLb & GF & ED).
      rewrite EN in EU |- *. cbn [of_opt] in EU |- *. apply Nat.ltb_lt in HLb. rewrite HLb in EU |- *. cbn [bind andb] in EU |- *. rewrite En1 in EU |- *. cbn [bind fp_ops lo_count] in EU |- *.
      rewrite Qn in EU |- *. destruct (Nat.ltb_spec ((M + 1) / 2) (length en)); [|lia]. cbn [bind] in EU |- *.
      exact (RB y b0 eq_refl n en ln CB0 eq_refl EN Eln Rn Sn Fn Nn HGn GF ED EU).
Qed.
Lemma lb_in lo (a : list Z) x : ssorted a -> In x a -> exists z, lb lo a = Some z /\ (x <= z)%Z.
Proof.
  clear. intros HS HI. destruct (rev_case a) as [->|(a0 & z & ->)]; [contradiction|]. exists z. rewrite lb_snoc. split; auto.
  apply ssorted_app in HS as (_ & _ & HS). apply in_app_or in HI as [HI|[->|[]]]; [|lia]. specialize (HS x z HI ltac:(simpl; auto)). lia.
Qed.
Lemma hbd_in hi (b : list Z) x : ssorted b -> In x b -> exists z, hbd b hi = Some z /\ (z <= x)%Z.
Proof.
  clear. intros HS HI. destruct b as [|z b]; [contradiction|]. exists z. split; auto. destruct HI as [->|HI]; [lia|].
  apply ssorted_cons in HS as [_ HS]. rewrite agt_in in HS. specialize (HS x HI). lia.
Qed.

Lemma er_rel d : forall (t0 t1 : tree leaf) A i ks (cs : list (gt V)) B m lo hi k r dir,
  wf m (S d) lo hi (GB i ks cs) -> inb lo hi k -> inv (th t0) A [GB i ks cs] B ->
  (forall l es, fl_repm l es -> get k es = get k (ents cs) -> exists l', lo_erase O l k = Ok (r, l') /\ fl_repm l' (del k es)) ->
  1 <= length ks -> S d <= tdepth t0 -> (2 <= length ks \/ S d = tdepth t0) ->
  leaf_guard M O (slots_ok M) (th t0) (S d) i k = Ok false -> leaf_guard M O (slots_dir M dir) (th t0) (S d) i k = Ok true ->
  path_ok N M (DO dir) t0 (S d) i k = Ok true ->
  erase_branch N M (DO dir) t0 (S d) i k = Ok (t1, r) ->
  exists t2, erase_branch N M O t0 (S d) i k = Ok (t2, r) /\ damaged t0 t1 t2 (lids cs) lo hi.
Proof.
  induction d as [|d IH]; intros t0 t1 A i ks cs B m lo hi k r dir HWf Hk HI ER H1 HD HP G GD PT H; [exact (leaf_rel HWf Hk HI ER G GD H)|].
  destruct HWf as [HC HK]. cbn [mn] in HK. pose proof HI as HI0.
  apply inv_GB in HI as (HI & Hfi & Hni & (b & Eb & Hb)). cbn [fst snd] in *.
  destruct (route HK Hk) as (a & bb & CA & c & CB & -> & -> & LA & LB & Ha & Hbb & KL & Rc & Bc & KR & Hkc).
  destruct (kids_sorted HK) as [HS HFB].
  destruct (wfS_branch Rc) as (j & kc & cc & -> & Cc & Kc).
  change (CA ++ GB j kc cc :: CB) with (CA ++ [GB j kc cc] ++ CB) in *.
  pose proof (inv_sub HI) as HIc.
  destruct (ctx_ents (@wf_okc V N M minL minB minB (S d)) KL KR Hkc) as [HA HBB].
  assert (EG : get k (ents (CA ++ [GB j kc cc] ++ CB)) = get k (ents cc)).
  { rewrite !ents_app, ents_GB. rewrite get_app_lt by assumption. now rewrite get_app_gt. }
  rewrite EG in ER.
  rewrite leaf_guard_S in G, GD. rewrite path_ok_2 in PT. rewrite erase_branch_2 in H |- *. cbn [dir_ops lo_bpos] in H, PT.
  assert (Eg : getb (th t0) i = Ok b) by (unfold getb; now rewrite Eb).
  rewrite Eg in G, GD, PT, H |- *. cbn [bind] in G, GD, PT, H |- *.
  pose proof (@bpos_ok _ V N M O fl_repm minL _ LL b a bb _ k Hb HS Ha Hbb) as EP. rewrite EP in G, GD, PT, H |- *. cbn [bind] in G, GD, PT, H |- *.
  pose proof (@kid_at V N b _ CA (GB j kc cc) CB (length a) Hb (eq_sym LA)) as EC. rewrite EC in G, GD, PT, H |- *. cbn [bind gid] in G, GD, PT, H |- *.
  apply bind_inv in PT as ([|] & PT & PT1); [clear PT1|discriminate PT1].
  destruct (@erase_branch_ok _ V N M (DO dir) fl_repm _ _ minL minB _ (dir_laws V fp junk HM HW Ht dir) (dir_core V fp junk HM HW Ht dir) ltac:(lia) ltac:(lia) ltac:(lia) ltac:(lia)
    (slots_dir M dir) (@slots_dir_good V t fp junk M HM HW dir) r d t0 _ j kc cc _ minB _ _ k Rc Hkc HIc) as (tc & EE & HR).
  { intros j0 l es _ _ Hl _ EGe. exact (ER l es Hl EGe). }
  { lia. } { lia. } { right. left. exact PT. } { right. exact GD. }
  rewrite EE in H. cbn [bind] in H.
  destruct HR as [HR|(_ & HR & _)]; [|lia].
  destruct (IH t0 tc _ j kc cc _ minB _ _ k r dir Rc Hkc HIc ER ltac:(lia) ltac:(lia) ltac:(lia) G GD PT EE) as (t2 & E2 & DM). rewrite E2. cbn [bind].
  destruct DM as (y & sg & sb & q & l1 & l2 & DH & DR & DD & Dlt & Dsb & Dsg & DN & Dq & D1 & D2 & L1 & L2).
  destruct HR as (R1 & R2 & kc' & cc' & U0 & EN & KK & Hlen & Hge).
  pose proof (upd_ctx HI U0) as UC.
  assert (Eb1 : hb (th tc) i = Some b) by (rewrite (fr_b (uo_fr UC)); auto).
  assert (Eg1 : getb (th tc) i = Ok b) by (unfold getb; now rewrite Eb1).
  pose proof (uo_inv U0) as J. apply inv_GB in J as (_ & _ & _ & (cb & Ecb & Rcb)). cbn [fst snd] in Ecb, Rcb.
  assert (Egc : getb (th tc) j = Ok cb) by (unfold getb; now rewrite Ecb).
  rewrite Eg1 in H. cbn [bind] in H. rewrite EP in H. cbn [bind] in H. rewrite Egc in H. cbn [bind] in H.
  apply ssorted_app in HS as HS3. destruct HS3 as (HSa & HSb & _).
  destruct Dsb as [Dsb1 Dsb2]. destruct Dsg as [Dsg1 Dsg2].
  assert (NSG : ~ In sg (a ++ bb)).
  { intros X. apply in_app_or in X as [X|X].
    - destruct (lb_in lo HSa X) as (z & Ez & Hz). rewrite Ez in Dsb1. cbn [lob] in Dsb1. lia.
    - destruct (hbd_in hi HSb X) as (z & Ez & Hz). rewrite Ez in Dsg2. cbn [hib] in Dsg2. lia. }
  destruct (getb_rel DH Eg1) as (b2 & Eb2 & BRb).
  assert (Hb2 : brep N b2 (a ++ bb) (map (@gid V) (CA ++ [GB j kc cc] ++ CB))).
  { eapply brep_rel; [|exact Hb|exact BRb]. intros x x' Hx [->|[-> _]]; [reflexivity|contradiction]. }
  rewrite Eb2. cbn [bind]. rewrite (@bpos_ok _ V N M O fl_repm minL _ LL b2 a bb _ k Hb2 HS Ha Hbb). cbn [bind].
  destruct (getb_rel DH Egc) as (cb2 & Ecb2 & BRc). rewrite Ecb2. cbn [bind]. replace (bn cb2) with (bn cb) by (symmetry; apply BRc).
  assert (WK : forall z, inb (lb lo a) (hbd bb hi) z -> inb lo hi z).
  { intros z Hz. rewrite Forall_forall in HFB. eapply inb_weak; [exact Hz| |].
    - intros w Hw. destruct (rev_case a) as [->|(a0 & x & ->)]; [exact Hw|]. rewrite lb_snoc in Hw. destruct (HFB x) as [X _]; [rewrite !in_app_iff; left; right; now left|]. eapply bl_lob; eauto.
    - intros w Hw. destruct bb as [|x b0]; [exact Hw|]. destruct (HFB x) as [_ X]; [rewrite in_app_iff; right; now left|]. eapply bl_hib; eauto. }
  assert (INQ : In q (lids (CA ++ [GB j kc cc] ++ CB))) by (rewrite !lids_app, lids_GB, !in_app_iff; tauto).
  destruct (Nat.ltb_spec (bn cb) ((N + 1) / 2)) as [HU|HU].
  - bnd H. destruct x as [h2 c']. rename E into EU.
    (* the keys at slot 0 compare as before *)
    assert (KC : ssorted kc' /\ Forall (fun z => bl (lb lo a) (Some z) /\ bl (Some z) (hbd bb hi)) kc') by exact (kids_sorted KK).
    destruct KC as [_ KC].
    assert (CR : forall rb rb' r0 r0', hb (th tc) j = Some rb -> hb (th t2) j = Some rb' -> aget (bk rb) 0 = Ok r0 -> aget (bk rb') 0 = Ok r0' ->
      inb (lb lo a) (hbd bb hi) r0 /\ inb (lb lo a) (hbd bb hi) r0').
    { intros rb rb' r0 r0' X1 X2 X3 X4. rewrite Ecb in X1. injection X1 as <-.
      assert (rb' = cb2) as -> by (unfold getb in Ecb2; rewrite X2 in Ecb2; now injection Ecb2).
      destruct kc' as [|z kc']; [cbn [length] in Hge; lia|]. rewrite (brep_key (i := 0) Rcb eq_refl) in X3. injection X3 as <-.
      assert (HZ : inb (lb lo a) (hbd bb hi) z).
      { rewrite Forall_forall in KC. destruct (KC z ltac:(simpl; auto)) as [Z1 Z2]. split; [destruct (lb lo a); cbn in *; auto; lia|destruct (hbd bb hi); cbn in *; auto]. }
      split; auto. destruct BRc as (_ & _ & BRc). destruct (aget_rel BRc (brep_key (i := 0) Rcb eq_refl)) as (z' & Ez' & HZ'). rewrite X4 in Ez'. injection Ez' as ->.
      destruct HZ' as [->|[_ ->]]; [exact HZ|]. split; assumption. }
    assert (SC : forall e, (0 < length a /\ aget (bc b) (length a - 1) = Ok e) \/ (length a < bn b /\ aget (bc b) (length a + 1) = Ok e) -> same_cmp (th tc) (th t2) e j).
    { intros e [[X1 X2]|[X1 X2]].
      - destruct (rev_case a) as [->|(a0 & x & ->)]; [cbn [length] in X1; lia|].
        rewrite app_length in LA. cbn [length] in LA.
        destruct (rev_case CA) as [->|(CA0 & g & ->)]; [cbn [length] in LA; lia|].
        rewrite app_length in LA. cbn [length] in LA. assert (LA0 : length CA0 = length a0) by lia.
        apply kl_snoc in KL; [|exact LA0]. destruct KL as (KL & Bx & Wg). destruct (wfS_branch Wg) as (p & kp & cp & -> & Cp & Kp).
        destruct (kids_sorted Kp) as [_ KP].
        replace (length (a0 ++ [x]) - 1) with (length CA0) in X2 by (rewrite app_length; cbn [length]; lia).
        assert (Hb3 : brep N b ((a0 ++ [x]) ++ bb) (map (@gid V) (CA0 ++ GB p kp cp :: [GB j kc cc] ++ CB))) by (rewrite <- (app_assoc CA0) in Hb; exact Hb).
        rewrite (@kid_at V N b _ CA0 (GB p kp cp) _ (length CA0) Hb3 eq_refl) in X2. injection X2 as <-.
        pose proof (uo_inv UC) as J. rewrite <- (app_assoc CA0) in J. apply inv_sub in J. apply inv_GB in J as (_ & _ & _ & (pb & Epb & Rpb)). cbn [fst snd] in Epb, Rpb.
        intros db rb db' rb' d0 r0 d0' r0' Y1 Y2 Y3 Y4 Y5 Y6 Y7 Y8. cbn [gid] in Y1, Y3.
        destruct (CR rb rb' r0 r0' Y2 Y4 Y6 Y8) as [[Z1 _] [Z2 _]]. rewrite lb_snoc in Z1, Z2, Dsb1. cbn [lob] in Z1, Z2, Dsb1.
        rewrite Epb in Y1. injection Y1 as <-. destruct kp as [|z kp]; [cbn [length] in Cp; lia|]. rewrite (brep_key (i := 0) Rpb eq_refl) in Y5. injection Y5 as <-.
        rewrite Forall_forall in KP. destruct (KP z ltac:(simpl; auto)) as [_ Z3]. cbn [bl] in Z3.
        assert (Egp : getb (th tc) p = Ok pb) by (unfold getb; now rewrite Epb). destruct (getb_rel DH Egp) as (pb' & Epb' & (_ & _ & BRp)).
        unfold getb in Epb'. rewrite Y3 in Epb'. injection Epb' as <-.
        destruct (aget_rel BRp (brep_key (i := 0) Rpb eq_refl)) as (z' & Ez' & HZ'). rewrite Y7 in Ez'. injection Ez' as ->.
        destruct HZ' as [->|[-> _]]; [|lia]. destruct (Z.ltb_spec z r0'), (Z.ltb_spec z r0); auto; lia.
      - assert (Hbn : bn b = length (a ++ bb)) by apply Hb. rewrite Hbn, app_length in X1.
        destruct bb as [|x b0]; [cbn [length] in X1; lia|]. destruct CB as [|g CB0]; [discriminate LB|].
        cbn [kr] in KR. destruct KR as (By & Wg & KR). destruct (wfS_branch Wg) as (p & kp & cp & -> & Cp & Kp).
        destruct (kids_sorted Kp) as [_ KP].
        assert (Hb3 : brep N b (a ++ x :: b0) (map (@gid V) ((CA ++ [GB j kc cc]) ++ GB p kp cp :: CB0))) by (rewrite <- app_assoc; exact Hb).
        rewrite (@kid_at V N b _ (CA ++ [GB j kc cc]) (GB p kp cp) CB0 (length a + 1) Hb3) in X2 by (rewrite app_length; cbn [length]; lia). injection X2 as <-.
        pose proof (uo_inv UC) as J. change ([GB j kc' cc'] ++ GB p kp cp :: CB0) with ([GB j kc' cc'] ++ [GB p kp cp] ++ CB0) in J. rewrite app_assoc in J.
        apply inv_sub in J. apply inv_GB in J as (_ & _ & _ & (pb & Epb & Rpb)). cbn [fst snd] in Epb, Rpb.
        intros db rb db' rb' d0 r0 d0' r0' Y1 Y2 Y3 Y4 Y5 Y6 Y7 Y8. cbn [gid] in Y1, Y3.
        destruct (CR rb rb' r0 r0' Y2 Y4 Y6 Y8) as [[_ Z1] [_ Z2]]. cbn [hbd hd map hib] in Z1, Z2, Dsg2.
        rewrite Epb in Y1. injection Y1 as <-. destruct kp as [|z kp]; [cbn [length] in Cp; lia|]. rewrite (brep_key (i := 0) Rpb eq_refl) in Y5. injection Y5 as <-.
        rewrite Forall_forall in KP. destruct (KP z ltac:(simpl; auto)) as [Z3 _]. cbn [bl] in Z3.
        assert (Egp : getb (th tc) p = Ok pb) by (unfold getb; now rewrite Epb). destruct (getb_rel DH Egp) as (pb' & Epb' & (_ & _ & BRp)).
        unfold getb in Epb'. rewrite Y3 in Epb'. injection Epb' as <-.
        destruct (aget_rel BRp (brep_key (i := 0) Rpb eq_refl)) as (z' & Ez' & HZ'). rewrite Y7 in Ez'. injection Ez' as ->.
        destruct HZ' as [->|[-> _]]; [|lia]. destruct (Z.ltb_spec z r0'), (Z.ltb_spec z r0); auto; lia. }
    destruct (@underflow_branch_rel _ N (Kx sg sb) (th tc) (th t2) i (length a) j h2 c' b DH Eb1 SC EU) as (h2' & EU' & DH2). rewrite EU'. cbn [bind].
    bnd H. rename x into bz. rename E into Ebz. destruct (getb_rel DH2 Ebz) as (bz2 & -> & (Bz1 & _)). cbn [bind]. rewrite Bz1, DD.
    destruct (underflow_branch_sl EU) as (A1 & A2 & _). destruct (underflow_branch_sl EU') as (A3 & _).
    destruct ((S (S d) =? tdepth tc) && (bn bz =? 0)); injection H as <-; eexists; (split; [reflexivity|]);
      exists y, sg, sb, q, l1, l2; destruct Dlt; cbn [th troot tdepth]; rewrite ?A1, ?A2, ?A3; splits; auto; apply WK; split; assumption.
  - injection H as <-. exists t2. split; auto. exists y, sg, sb, q, l1, l2. destruct Dlt. splits; auto; apply WK; split; assumption.
Qed.

(** Both erases find the same nodes that get too few keys. *)
Lemma path_relf d : forall (t0 : tree leaf) A i ks (cs : list (gt V)) B m lo hi k r dir,
  wf m (S d) lo hi (GB i ks cs) -> inb lo hi k -> inv (th t0) A [GB i ks cs] B ->
  (forall l es, fl_repm l es -> get k es = get k (ents cs) -> exists l', lo_erase O l k = Ok (r, l') /\ fl_repm l' (del k es)) ->
  1 <= length ks -> S d <= tdepth t0 -> (2 <= length ks \/ S d = tdepth t0) ->
  leaf_guard M O (slots_ok M) (th t0) (S d) i k = Ok false -> leaf_guard M O (slots_dir M dir) (th t0) (S d) i k = Ok true ->
  exists x, path_ok N M (DO dir) t0 (S d) i k = Ok x /\ path_ok N M O t0 (S d) i k = Ok x /\
    (x = false -> erase_branch N M (DO dir) t0 (S d) i k = UB /\ erase_branch N M O t0 (S d) i k = UB).
Proof.
  induction d as [|d IH]; intros t0 A i ks cs B m lo hi k r dir HWf Hk HI ER H1 HD HP G GD;
    destruct (@path_dec _ V N M (DO dir) fl_repm _ _ minL minB _ (dir_laws V fp junk HM HW Ht dir) (dir_core V fp junk HM HW Ht dir) ltac:(lia) ltac:(lia) ltac:(lia) ltac:(lia)
      (slots_dir M dir) (@slots_dir_good V t fp junk M HM HW dir) r _ t0 A i ks cs B m lo hi k HWf Hk HI ER H1 HD HP (or_intror GD)) as (y & Ey & Hy & Hz).
  - specialize (Hz eq_refl). subst y. exists true. split; [exact Ey|]. split; [exact Ey|discriminate].
  - exists y. split; [exact Ey|]. clear Hz.
    cut (path_ok N M O t0 (S (S d)) i k = Ok y /\ (y = false -> erase_branch N M O t0 (S (S d)) i k = UB)).
    { intros [X1 X2]. split; [exact X1|]. intros F. split; [exact (Hy F)|exact (X2 F)]. }
    clear Hy. pose proof HWf as HWf0. destruct HWf as [HC HK]. cbn [mn] in HK.
    apply inv_GB in HI as (HI & Hfi & Hni & (b & Eb & Hb)). cbn [fst snd] in *.
    destruct (route HK Hk) as (a & bb & CA & c & CB & -> & -> & LA & LB & Ha & Hbb & KL & Rc & Bc & KR & Hkc).
    destruct (kids_sorted HK) as [HS HFB].
    destruct (wfS_branch Rc) as (j & kc & cc & -> & Cc & Kc).
    change (CA ++ GB j kc cc :: CB) with (CA ++ [GB j kc cc] ++ CB) in *.
    pose proof (inv_sub HI) as HIc.
    destruct (ctx_ents (@wf_okc V N M minL minB minB (S d)) KL KR Hkc) as [HA HBB].
    assert (EG : get k (ents (CA ++ [GB j kc cc] ++ CB)) = get k (ents cc)).
    { rewrite !ents_app, ents_GB. rewrite get_app_lt by assumption. now rewrite get_app_gt. }
    rewrite EG in ER.
    rewrite leaf_guard_S in G, GD. rewrite path_ok_2 in Ey |- *. rewrite erase_branch_2. cbn [dir_ops lo_bpos] in Ey.
    assert (Eg : getb (th t0) i = Ok b) by (unfold getb; now rewrite Eb).
    rewrite Eg in G, GD, Ey |- *. cbn [bind] in G, GD, Ey |- *.
    pose proof (@bpos_ok _ V N M O fl_repm minL _ LL b a bb _ k Hb HS Ha Hbb) as EP. rewrite EP in G, GD, Ey |- *. cbn [bind] in G, GD, Ey |- *.
    pose proof (@kid_at V N b _ CA (GB j kc cc) CB (length a) Hb (eq_sym LA)) as EC. rewrite EC in G, GD, Ey |- *. cbn [bind gid] in G, GD, Ey |- *.
    destruct (IH t0 _ j kc cc _ minB _ _ k r dir Rc Hkc HIc ER ltac:(lia) ltac:(lia) ltac:(left; lia) G GD) as (x & Ex1 & Ex2 & Hx).
    rewrite Ex1 in Ey. rewrite Ex2. cbn [bind] in Ey |- *. destruct x.
    2:{ injection Ey as <-. split; [reflexivity|]. intros _. rewrite (proj2 (Hx eq_refl)). reflexivity. }
    clear Hx.
    destruct (@erase_branch_ok _ V N M (DO dir) fl_repm _ _ minL minB _ (dir_laws V fp junk HM HW Ht dir) (dir_core V fp junk HM HW Ht dir) ltac:(lia) ltac:(lia) ltac:(lia) ltac:(lia)
      (slots_dir M dir) (@slots_dir_good V t fp junk M HM HW dir) r d t0 _ j kc cc _ minB _ _ k Rc Hkc HIc) as (tc & EE & HR).
    { intros j0 l es _ _ Hl _ EGe. exact (ER l es Hl EGe). }
    { lia. } { lia. } { right. left. exact Ex1. } { right. exact GD. }
    rewrite EE in Ey. cbn [bind fst] in Ey.
    destruct HR as [HR|(_ & HR & _)]; [|lia].
    destruct (@er_rel d t0 tc _ j kc cc _ minB _ _ k r dir Rc Hkc HIc ER ltac:(lia) ltac:(lia) ltac:(lia) G GD Ex1 EE) as (t2 & E2 & DM). rewrite E2. cbn [bind fst].
    destruct DM as (z & sg & sb & q & l1 & l2 & DH & DR & DD & Dlt & Dsb & Dsg & DN & Dq & D1 & D2 & L1 & L2).
    destruct HR as (R1 & R2 & kc' & cc' & U0 & EN & KK & Hlen & Hge).
    pose proof (upd_ctx HI U0) as UC.
    assert (Eb1 : hb (th tc) i = Some b) by (rewrite (fr_b (uo_fr UC)); auto).
    assert (Eg1 : getb (th tc) i = Ok b) by (unfold getb; now rewrite Eb1).
    pose proof (uo_inv U0) as J. apply inv_GB in J as (_ & _ & _ & (cb & Ecb & Rcb)). cbn [fst snd] in Ecb, Rcb.
    assert (Egc : getb (th tc) j = Ok cb) by (unfold getb; now rewrite Ecb).
    rewrite Egc in Ey. cbn [bind] in Ey.
    apply ssorted_app in HS as HS3. destruct HS3 as (HSa & HSb & _).
    destruct Dsb as [Dsb1 Dsb2]. destruct Dsg as [Dsg1 Dsg2].
    assert (NSG : ~ In sg (a ++ bb)).
    { intros X. apply in_app_or in X as [X|X].
      - destruct (lb_in lo HSa X) as (w & Ez & Hz). rewrite Ez in Dsb1. cbn [lob] in Dsb1. lia.
      - destruct (hbd_in hi HSb X) as (w & Ez & Hz). rewrite Ez in Dsg2. cbn [hib] in Dsg2. lia. }
    destruct (getb_rel DH Eg1) as (b2 & Eb2 & BRb).
    assert (Hb2 : brep N b2 (a ++ bb) (map (@gid V) (CA ++ [GB j kc cc] ++ CB))).
    { eapply brep_rel; [|exact Hb|exact BRb]. intros x x' Hx [->|[-> _]]; [reflexivity|contradiction]. }
    destruct (getb_rel DH Egc) as (cb2 & Ecb2 & BRc). rewrite Ecb2. cbn [bind]. replace (bn cb2) with (bn cb) by (symmetry; apply BRc).
    rewrite Eb2. cbn [bind]. rewrite (@bpos_ok _ V N M O fl_repm minL _ LL b2 a bb _ k Hb2 HS Ha Hbb). cbn [bind].
    replace (bn cb2) with (bn cb) by (symmetry; apply BRc).
    destruct (Nat.ltb_spec (bn cb) ((N + 1) / 2)) as [HU|HU]; [|injection Ey as <-; split; [reflexivity|discriminate]].
    pose proof (room_rel DH Ey) as Ey2. split; [exact Ey2|]. intros ->.
    assert (Hbn : bn b = length (a ++ bb)) by apply Hb.
    unfold getb in Eb2, Ecb2. destruct (hb (th t2) i) as [b2'|] eqn:Hi2; [|discriminate Eb2]. injection Eb2 as ->.
    destruct (hb (th t2) j) as [cb2'|] eqn:Hj2; [|discriminate Ecb2]. injection Ecb2 as ->.
    rewrite (@room_ub _ N (th t2) i (length a) j _ b2 cb2 Ey2 Hi2 Hj2); [reflexivity| | |].
    + replace (bn b2) with (bn b) by (symmetry; apply BRb). rewrite Hbn. destruct HP as [HP|HP]; [left; lia|right; now apply Nat.eqb_eq].
    + destruct BRc as (_ & _ & BRc). rewrite (AR_length BRc). apply Rcb.
    + intros p pb Hp Eq Ep. assert (Eq' : aget (bc b) (length a - 1) = Ok p) by (destruct BRb as (_ & <- & _); exact Eq).
      destruct (rev_case CA) as [->|(CA0 & g & ->)]; [cbn [length] in LA; lia|]. rewrite app_length in LA. cbn [length] in LA.
      destruct (rev_case a) as [->|(a0 & x & ->)]; [cbn [length] in Hp; lia|]. rewrite app_length in LA, Hp, Eq'. cbn [length] in LA, Hp, Eq'.
      apply kl_snoc in KL; [|lia]. destruct KL as (_ & _ & Wg). destruct (wfS_branch Wg) as (p' & kp & cp & -> & Cp & Kp).
      assert (Hb3 : brep N b ((a0 ++ [x]) ++ bb) (map (@gid V) (CA0 ++ GB p' kp cp :: [GB j kc cc] ++ CB))) by (rewrite <- (app_assoc CA0) in Hb; exact Hb).
      rewrite (@kid_at V N b _ CA0 (GB p' kp cp) _ (length a0 + 1 - 1) Hb3 ltac:(lia)) in Eq'. injection Eq' as <-. cbn [gid] in Ep.
      pose proof (uo_inv UC) as J. rewrite <- (app_assoc CA0) in J. apply inv_sub in J. apply inv_GB in J as (_ & _ & _ & (pb0 & Epb & Rpb)). cbn [fst snd] in Epb, Rpb.
      specialize (DH p'). rewrite Epb, Ep in DH. destruct DH as (_ & _ & DH). rewrite (AR_length DH). apply Rpb.
Qed.

(** ** Looking up in the damaged tree *)
Lemma AR_pre K (ks : list Z) R arr' : AR K (map Some ks ++ R) arr' -> exists ks' R', arr' = map Some ks' ++ R' /\ Forall2 K ks ks'.
Proof.
  clear. revert arr'. induction ks as [|x ks IH]; intros arr' H; [exists [], arr'; split; [reflexivity|constructor]|].
  cbn [map app] in H. inversion H as [|o o' l l' Ho Hl]; subst. destruct o' as [x'|]; [|contradiction]. destruct (IH _ Hl) as (ks' & R' & -> & HF).
  exists (x' :: ks'), R'. split; [reflexivity|]. constructor; auto.
Qed.

Lemma bpos_rel (b b2 : branch) a bb (cs : list nat) y sg sb : brep N b (a ++ bb) cs -> BR (Kx sg sb) b b2 -> ssorted (a ++ bb) -> ale y a -> agt y bb -> (sb < sg <= y)%Z ->
  lo_bpos O (bk b2) (bn b2) y = Ok (length a).
Proof.
  intros (Hn & _ & _ & [R EK] & _) (B1 & _ & B3) HS Ha Hbb Hlt. rewrite EK in B3. destruct (AR_pre B3) as (ks' & R' & -> & HF).
  apply Forall2_app_inv_l in HF as (a' & bb' & HFa & HFb & ->). rewrite B1, Hn. cbn [fp_ops lo_bpos].
  assert (LA : length a = length a') by (clear - HFa; induction HFa; cbn [length]; auto).
  assert (LB : length bb = length bb') by (clear - HFb; induction HFb; cbn [length]; auto).
  rewrite app_length, LA, LB, <- app_length. unfold bsearch_pos. apply bsearch_cut; try (rewrite ?app_length; lia).
  - intros i x' Hx'. assert (exists x, nth_error a i = Some x /\ Kx sg sb x x') as (x & Hx & HKx).
    { clear - HFa Hx'. revert i Hx'. induction HFa as [|u u' a a' Hu Ha IH]; intros i Hx'; [destruct i; discriminate|].
      destruct i as [|i]; [injection Hx' as <-; exists u; split; [reflexivity|exact Hu]|exact (IH i Hx')]. }
    destruct HKx as [->|[_ ->]]; [|left; lia]. rewrite ale_in in Ha. pose proof (Ha x (nth_error_In _ _ Hx)) as Hle.
    destruct (Z.eq_dec x y) as [->|NE]; [|left; lia]. right. split; auto. rewrite <- LA.
    destruct (Nat.lt_ge_cases (S i) (length a)) as [Hi|Hi]; [|pose proof (nth_error_Some_lt Hx); lia]. exfalso.
    destruct (nth_error a (S i)) as [z|] eqn:Ez; [|apply nth_error_None in Ez; lia].
    pose proof (Ha z (nth_error_In _ _ Ez)) as Hz. apply ssorted_app in HS as (HS & _ & _).
    apply nth_error_split in Hx as (q1 & q2 & -> & <-). rewrite nth_error_app2 in Ez by lia. replace (S (length q1) - length q1) with 1 in Ez by lia.
    cbn [nth_error] in Ez. destruct q2 as [|w q2]; [discriminate|]. cbn in Ez. injection Ez as ->.
    apply ssorted_app in HS as (_ & HS & _). apply ssorted_cons in HS as [_ HS]. rewrite agt_in in HS. specialize (HS z ltac:(simpl; auto)). lia.
  - intros x' Hx'. assert (exists x, In x bb /\ Kx sg sb x x') as (x & Hx & HKx).
    { clear - HFb Hx'. induction HFb as [|u u' a a' Hu Ha IH]; [contradiction|]. destruct Hx' as [<-|Hx']; [exists u; simpl; auto|].
      destruct (IH Hx') as (x & H1 & H2). exists x. simpl. auto. }
    rewrite agt_in in Hbb. specialize (Hbb x Hx). destruct HKx as [->|[-> _]]; lia.
Qed.

Lemma find_leaf_rel (h1 h2 : heap leaf) y sg sb : HRx sg sb h1 h2 -> (sb < sg <= y)%Z -> forall d m A (g : gt V) B lo hi, wf m d lo hi g -> inb lo hi y -> inv h1 A [g] B ->
  find_leaf O h2 d (gid g) y = find_leaf O h1 d (gid g) y.
Proof.
  intros DH Hlt. induction d as [|d IH]; intros m A g B lo hi HWf Hy HI; [reflexivity|].
  destruct (wfS_branch HWf) as (i & ks & cs & -> & HC & HK). cbn [gid find_leaf].
  apply inv_GB in HI as (HI & Hfi & Hni & (b & Eb & Hb)). cbn [fst snd] in *.
  destruct (route HK Hy) as (a & bb & CA & c & CB & -> & -> & LA & LB & Ha & Hbb & KL & Rc & Bc & KR & Hkc).
  destruct (kids_sorted HK) as [HS _].
  assert (Eg : getb h1 i = Ok b) by (unfold getb; now rewrite Eb). destruct (getb_rel DH Eg) as (b2 & Eb2 & BRb).
  rewrite Eg, Eb2. cbn [bind]. rewrite (@bpos_ok _ V N M O fl_repm minL _ LL b a bb _ y Hb HS Ha Hbb).
  rewrite (@bpos_rel b b2 a bb _ y sg sb Hb BRb HS Ha Hbb Hlt). cbn [bind]. destruct BRb as (_ & -> & _).
  rewrite (@kid_at V N b _ CA c CB (length a) Hb) by auto. cbn [bind].
  eapply IH; [exact Rc|exact Hkc|]. change (CA ++ c :: CB) with (CA ++ [c] ++ CB) in HI. exact (inv_sub HI).
Qed.

Lemma chain_eq (h h1 : heap leaf) : hnx h1 = hnx h -> forall ids ids1 p p1, seg h p ids None -> seg h1 p1 ids1 None -> hd_error ids = hd_error ids1 -> ids = ids1.
Proof.
  clear. intros E. induction ids as [|i ids IH]; intros [|i1 ids1] p p1 H H1 HD; try discriminate HD; [reflexivity|]. injection HD as <-.
  cbn [seg] in H, H1. destruct H as (_ & H & HR). destruct H1 as (_ & H1 & HR1). f_equal. eapply IH; eauto.
  rewrite E, H in H1. destruct ids, ids1; cbn in H1 |- *; congruence.
Qed.

Lemma fl_damage_w (t0 : tree leaf) es k : tinv t0 es -> leaf_guard M O (slots_ok M) (th t0) (tdepth t0) (troot t0) k = Ok false ->
  exists x, path_ok N M O t0 (tdepth t0) (troot t0) k = Ok x /\ (2 * ((N + 1) / 2) <= N -> x = true) /\
    if x then exists t2 b y, t_erase N M O t0 k = Ok (t2, b) /\ (b = true <-> get k es <> None) /\ y <> k /\ get y es <> None /\ t_lookup O t2 y = Ok None
    else t_erase N M O t0 k = UB.
Proof.
  intros I G. pose proof (tinv_sorted I) as HSe. destruct (tinv_tinvf I) as (f & If).
  set (r := match get k es with Some _ => true | None => false end).
  assert (ER : forall l es', fl_repm l es' -> get k es' = get k es -> exists l', lo_erase O l k = Ok (r, l') /\ fl_repm l' (del k es')).
  { intros l es' Hl E. unfold r. destruct (get k es) as [v|] eqn:Eg.
    - apply (law_erase EL Hl). rewrite E. discriminate.
    - destruct (fl_absent_fine junk Hl E) as [X1 X2]. exists l. split; auto. rewrite (del_none E) by auto; exact Hl. }
  unfold t_erase in *. destruct (tdepth t0) as [|d] eqn:ED; [discriminate G|].
  destruct (guard_dir_ex G) as (dir & GD).
  assert (PX : exists x, path_ok N M (DO dir) t0 (S d) (troot t0) k = Ok x /\ path_ok N M O t0 (S d) (troot t0) k = Ok x /\
    (x = false -> erase_branch N M (DO dir) t0 (S d) (troot t0) k = UB /\ erase_branch N M O t0 (S d) (troot t0) k = UB)).
  { destruct If as (g & Eg & W & Iv & Ee & Hf). rewrite ED in W. destruct (wfS_branch W) as (i & ks & cs & -> & Cs & KK). cbn [gid rmin] in *.
    rewrite <- Eg in *. rewrite <- Ee, ents_GB in ER.
    exact (@path_relf d t0 [] i ks cs [] 1 None None k r dir W ltac:(split; exact Logic.I) Iv ER ltac:(lia) ltac:(lia) ltac:(right; lia) G GD). }
  destruct PX as (x & PD & PO & PF). exists x. split; [exact PO|].
  assert (GE : 2 * ((N + 1) / 2) <= N \/ x = true -> exists t1, t_erase N M (DO dir) t0 k = Ok (t1, r) /\ tinvf f t1 (del k es)).
  { intros HX. apply (@t_erase_genf_w _ V N M (DO dir) fl_repm _ _ minL minB _ (dir_laws V fp junk HM HW Ht dir) (dir_core V fp junk HM HW Ht dir) ltac:(lia) ltac:(lia) ltac:(lia) ltac:(lia)
      (slots_dir M dir) (@slots_dir_good V t fp junk M HM HW dir) f r t0 es k If).
    - intros j l es' _ _ Hl _ E. exact (ER l es' Hl E).
    - destruct HX as [HX| ->]; [left; split; lia|right; left]. rewrite ED. exact PD.
    - right. rewrite ED. exact GD. }
  split.
  { intros HX. destruct x; auto. destruct (GE (or_introl HX)) as (t1 & E1 & _). unfold t_erase in E1. rewrite ED in E1. rewrite (proj1 (PF eq_refl)) in E1. discriminate E1. }
  destruct x; [|exact (proj2 (PF eq_refl))].
  destruct (GE (or_intror eq_refl)) as (t1 & E1 & I1). clear GE PF PO.
  unfold t_erase in E1. rewrite ED in E1.
  destruct If as (g & Eg & W & Iv & Ee & Hf). destruct I1 as (g1 & Eg1 & W1 & Iv1 & Ee1 & Hf1).
  rewrite ED in W. destruct (wfS_branch W) as (i & ks & cs & -> & Cs & KK). cbn [gid rmin] in *.
  rewrite <- Eg in *. rewrite <- Ee, ents_GB in ER.
  destruct (@er_rel d t0 t1 [] i ks cs [] 1 None None k r dir W ltac:(split; exact Logic.I) Iv ER ltac:(lia) ltac:(lia) ltac:(right; lia) G GD PD E1) as (t2 & E2 & DM).
  destruct DM as (y & sg & sb & q & l1 & l2 & DH & DR & DD & Dlt & _ & _ & DN & Dq & D1 & D2 & (v & L1) & L2).
  pose proof (inv_seg Iv) as SG. pose proof (inv_seg Iv1) as SG1. cbn [app] in SG, SG1. rewrite app_nil_r in SG, SG1.
  assert (EI : lids [GB i ks cs] = lids [g1]) by (eapply chain_eq; [exact DN|exact SG|exact SG1|congruence]).
  rewrite <- (lids_GB i ks cs), EI in Dq. unfold lids in Dq. apply in_map_iff in Dq as ([q' eq] & Eq & Dq). cbn [fst] in Eq. subst q'.
  pose proof (inv_l Iv1) as LV. rewrite Forall_forall in LV. destruct (LV _ Dq) as (l1' & D1' & Rl1). cbn [fst snd] in D1', Rl1. rewrite D1 in D1'. injection D1' as <-.
  assert (HY : In y (keys eq)).
  { rewrite (law_lookup LL y Rl1) in L1. injection L1 as L1. destruct (in_dec Z.eq_dec y (keys eq)) as [X|X]; auto. apply get_none in X; [congruence|exact (law_sorted LL Rl1)]. }
  assert (FI : find_leaf O (th t1) (tdepth t1) (gid g1) y = Ok q) by exact (find_in LL W1 Iv1 Dq HY).
  exists t2, r, y. splits.
  - exact E2.
  - unfold r. destruct (get k es); split; intros; congruence.
  - intros ->. assert (X : get k (del k es) = None) by (rewrite get_del by exact HSe; now rewrite Z.eqb_refl).
    apply get_none in X; [|now apply sorted_del]. apply X. rewrite <- Ee1. unfold ents, keys in *. apply in_map_iff in HY as (z & <- & Hz). apply in_map. apply in_flat_map. exists (q, eq). auto.
  - intros X. apply get_none in X; [|exact HSe]. apply X. eapply (@del_in_keys _ k). rewrite <- Ee1. unfold ents, keys in *. apply in_map_iff in HY as (z & <- & Hz). apply in_map. apply in_flat_map. exists (q, eq). auto.
  - unfold t_lookup. rewrite DR, DD, <- Eg1.
    rewrite (@find_leaf_rel (th t1) (th t2) y sg sb DH Dlt _ _ [] g1 [] None None W1 ltac:(split; exact Logic.I) Iv1), FI. cbn [bind]. unfold getl. rewrite D2. exact L2.
Qed.

End FX.

(** After any guarded history: the erase is right if the condition holds and loses another key if it does not. *)
Section FEven.
Variables (V : Type) (t : ktype) (fp : Z -> Z) (junk : nat -> Z) (N M : nat).
Hypothesis HM : 2 <= M.
Hypothesis HW : (N.of_nat M < W)%N.
Hypothesis Ht : (1 <= kt_bits t <= 64)%Z.
Hypothesis HN : 6 <= N.
Hypothesis HE : Nat.even N = true.
Notation O := (fp_ops V t fp junk M).
Notation LL := (flm_laws V fp junk HM HW Ht).
Notation EL := (fl_core V t fp junk HM HW (le_n 6)).
Lemma fp_exact os : Forall (op_in (fkok t)) os -> fine N M O (slots_ok M) (t_new O) (map bop_of os) = true ->
  exists tr, t_run N M O (t_new O) (map bop_of os) = Ok tr /\
    forall k c, leaf_guard M O (slots_ok M) (th tr) (tdepth tr) (troot tr) k = Ok c ->
      exists tr' b, t_erase N M O tr k = Ok (tr', b) /\ (b = true <-> m_run os k <> None) /\
      if c then forall x, t_lookup O tr' x = Ok (m_del (m_run os) k x)
      else exists x, x <> k /\ m_run os x <> None /\ t_lookup O tr' x = Ok None.
Proof.
  intros FK FF. destruct (even_half HE) as [HE1 HE2].
  destruct (fp_guarded HM HW Ht HN HE FK FF) as (tr & out & R1 & _ & _ & _ & _ & _ & _ & R7).
  destruct (@hist_guard_new _ _ N M O _ _ _ (M / 2) ((N + 1) / 2 - 1) _ LL EL ltac:(lia) ltac:(lia) ltac:(lia) ltac:(lia) ltac:(lia)
    _ (@slots_good V t fp junk N M HM HW HN) os (or_intror (@fl_absent_fine V t fp junk M)) FK FF) as (tr1 & es & E1 & I & Gm).
  rewrite R1 in E1. injection E1 as <-. exists tr. split; auto. intros k c Ec. destruct c.
  - destruct (R7 k Ec) as (tr' & b & X1 & X2 & X3). exists tr', b. auto.
  - assert (HN5 : 5 <= N) by lia. destruct (fl_damage_w HM HW Ht HN5 I Ec) as (x & _ & Hc & X). rewrite Hc in X by lia. destruct X as (t2 & b & y & X1 & X2 & X3 & X4 & X5). exists t2, b. rewrite <- !Gm. splits; auto. exists y. rewrite <- Gm. auto.
Qed.
End FEven.
