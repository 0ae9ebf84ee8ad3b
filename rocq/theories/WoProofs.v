(** Correctness of woPSkiplist for non-negative keys. *)
From Verif Require Import Base ArrLemmas MapSpec SortedList SearchModel RankModel BitmapModel BitmapProofs ULeafModel ULeafProofs
  SlotLemmas FLeafProofs SkipProofs WoModel WoNode.
From Coq Require Import Permutation.
Open Scope nat_scope.

Fixpoint wchain (f : nat -> res (option nat)) (a : nat) (l : list nat) : Prop :=
  match l with [] => f a = Ok None | b :: r => f a = Ok (Some b) /\ wchain f b r end.

Lemma wchain_tail f : forall p a b q, wchain f a (p ++ b :: q) -> wchain f b q.
Proof. induction p as [|c p IH]; intros a b q H; cbn in H; [apply H|]. destruct H as [_ H]. now apply IH in H. Qed.

Lemma wchain_ext f g : forall l a, (forall b, In b (a :: l) -> g b = f b) -> wchain f a l -> wchain g a l.
Proof.
  induction l as [|b l IH]; intros a H C; cbn in *.
  - rewrite H; auto.
  - destruct C as [C1 C2]. split; [rewrite H; auto|]. apply IH; auto.
Qed.

Lemma wchain_ins f g new B : forall A a, NoDup (a :: A ++ B) -> ~ In new (a :: A ++ B) ->
  wchain f a (A ++ B) ->
  (forall b, b <> new -> b <> last A a -> g b = f b) ->
  g (last A a) = Ok (Some new) -> g new = f (last A a) ->
  wchain g a (A ++ new :: B).
Proof.
  induction A as [|c A IH]; intros a ND NI C HE H1 H2.
  - cbn [app last] in *. cbn [wchain]. split; [assumption|].
    destruct B as [|b B]; cbn in C |- *; [now rewrite H2|]. destruct C as [C1 C2]. split; [now rewrite H2|].
    apply wchain_ext with f; [|assumption]. intros x Hx. apply HE.
    + intros ->. apply NI. now right.
    + intros ->. inversion ND; subst. contradiction.
  - rewrite last_cons in *. cbn [app wchain] in *. destruct C as [C1 C2]. split.
    + rewrite HE; [assumption| |].
      * intros ->. apply NI. now left.
      * intros E. apply NoDup_cons_iff in ND as [N _]. apply N. rewrite E. destruct (last_in A c) as [X|X].
        -- rewrite X. now left.
        -- right. apply in_or_app. now left.
    + apply IH; auto; [now inversion ND|]. intros X. apply NI. now right.
Qed.

Lemma short_list (l : list nat) n : NoDup l -> (forall b, In b l -> b < n) -> length l <= n.
Proof.
  intros ND H. rewrite <- (seq_length n 0). apply NoDup_incl_length; [assumption|].
  intros b Hb. apply in_seq. specialize (H b Hb). lia.
Qed.

Lemma take_while {A} (P : A -> bool) l : exists a b, l = a ++ b /\ (forall x, In x a -> P x = true) /\ (forall x, hd_error b = Some x -> P x = false).
Proof.
  induction l as [|x l (a & b & -> & H1 & H2)].
  - exists [], []. splits; [reflexivity|intros x []|discriminate].
  - destruct (P x) eqn:E.
    + exists (x :: a), b. splits; auto. intros y [->|Hy]; auto.
    + exists [], (x :: a ++ b). splits; [reflexivity|intros y []|]. intros y [= <-]. assumption.
Qed.

Lemma f2_cons {A B} (R : A -> B -> Prop) x l m : Forall2 R (x :: l) m -> exists y m', m = y :: m' /\ R x y /\ Forall2 R l m'.
Proof. intros F. inversion F; subst. eauto. Qed.
Lemma f2_cons_r {A B} (R : A -> B -> Prop) l y m : Forall2 R l (y :: m) -> exists x l', l = x :: l' /\ R x y /\ Forall2 R l' m.
Proof. intros F. inversion F; subst. eauto. Qed.

Lemma Forall2_in_l {A B} (R : A -> B -> Prop) l m x : Forall2 R l m -> In x l ->
  exists l1 l2 m1 y m2, l = l1 ++ x :: l2 /\ m = m1 ++ y :: m2 /\ Forall2 R l1 m1 /\ R x y /\ Forall2 R l2 m2.
Proof.
  intros F H. apply in_split in H as (l1 & l2 & ->). apply Forall2_app_inv_l in F as (m1 & m' & F1 & F2 & ->).
  inversion F2 as [|? y ? m2 Hy F2']; subst. exists l1, l2, m1, y, m2. splits; auto.
Qed.

Section WoP.
Variables (V : Type) (t : ktype) (N M : nat).
Notation wlist := (wlist V).
Notation wnode := (wnode V).
Implicit Types (s : wlist) (ns : list wnode) (es e : list (Z * V)) (bl : list (list (Z * V))).

Definition nfw ns (i : nat) : nat -> res (option nat) := fun b => wfwd_at ns b i.
Definition holds ns (b : nat) e : Prop := exists c, nc ns b = Some c /\ crep t N c e.
Definition shape bl : Prop := length bl = 1 \/ Forall (fun e => e <> []) bl.
Definition okkey (k : Z) : Prop := kt_in t k /\ (0 <= k)%Z.

Record winv s (ids : list nat) bl (ch : nat -> list nat) : Prop := WInv {
  w_len : lens M (wnodes s);
  w_blk : Forall2 (holds (wnodes s)) ids bl;
  w_ne : ids <> [];
  w_srt : sorted (concat bl);
  w_key : Forall okkey (keys (concat bl));
  w_nd : NoDup (0 :: ids);
  w_shape : shape bl;
  w_chain : forall i, i < M -> wchain (nfw (wnodes s) i) 0 (ch i);
  w_ch0 : ch 0 = ids;
  w_chs : forall i, incl (ch (S i)) (ch i);
  w_chnd : forall i, NoDup (ch i);
  w_ht : wheight s < M
}.

Definition mx ns (b : nat) : Z := match nc ns b with Some c => wmax c | None => 0%Z end.
Definition mn ns (b : nat) : Z := match nc ns b with Some c => wmin c | None => 0%Z end.

Lemma holds_mx ns b e : holds ns b e -> mx ns b = maxl t e /\ mn ns b = minl t e.
Proof. intros (c & E & (_ & _ & _ & A & B)). unfold mx, mn. now rewrite E. Qed.

Lemma shape_parts C1 e C2 : shape (C1 ++ e :: C2) -> (C1 = [] /\ C2 = []) \/ (e <> [] /\ Forall (fun e => e <> []) C1 /\ Forall (fun e => e <> []) C2).
Proof.
  intros [H|H].
  - left. rewrite app_length in H. cbn [length] in H. destruct C1, C2; cbn [length] in H; try lia. auto.
  - right. apply Forall_app in H as [H1 H2]. inversion H2; subst. auto.
Qed.

Lemma concat_mid C1 e C2 : concat (C1 ++ e :: C2) = concat C1 ++ e ++ concat C2.
Proof. rewrite concat_app. reflexivity. Qed.

Lemma blocks_lt C1 e C2 x y : sorted (concat (C1 ++ e :: C2)) -> In x (keys (concat C1)) -> In y (keys e) -> (x < y)%Z.
Proof.
  rewrite concat_mid. intros S Hx Hy. apply sorted_app in S as (_ & _ & S). apply S; [assumption|]. rewrite keys_app. apply in_or_app. now left.
Qed.
Lemma blocks_gt C1 e C2 x y : sorted (concat (C1 ++ e :: C2)) -> In x (keys e) -> In y (keys (concat C2)) -> (x < y)%Z.
Proof.
  rewrite concat_mid. intros S Hx Hy. apply sorted_app in S as (_ & S & _). apply sorted_app in S as (_ & _ & S). now apply S.
Qed.

Lemma mid_keys C1 e C2 : Forall okkey (keys (concat (C1 ++ e :: C2))) -> Forall okkey (keys e).
Proof. rewrite concat_mid, !keys_app. intros F. apply Forall_app in F as [_ F]. apply Forall_app in F. tauto. Qed.
Lemma ok_in e : Forall okkey (keys e) -> Forall (kt_in t) (keys e).
Proof. apply Forall_impl. intros k [H _]. exact H. Qed.

(** All later blocks are above a key not above the maximum of a block. *)
Lemma above C1 e C2 k : shape (C1 ++ e :: C2) -> sorted (concat (C1 ++ e :: C2)) -> Forall okkey (keys (concat (C1 ++ e :: C2))) ->
  (k <= maxl t e)%Z -> agt k (keys (concat C2)).
Proof.
  intros SH S K L. apply agt_in. intros y Hy. destruct (shape_parts SH) as [[_ ->]|(NE & _ & _)]; [destruct Hy|].
  pose proof (maxl_in (t := t) NE (ok_in (mid_keys K))) as HI. pose proof (blocks_gt S HI Hy). lia.
Qed.
Lemma below C1 e C2 k : shape (C1 ++ e :: C2) -> sorted (concat (C1 ++ e :: C2)) -> Forall okkey (keys (concat (C1 ++ e :: C2))) ->
  (minl t e <= k)%Z -> alt k (keys (concat C1)).
Proof.
  intros SH S K L. apply alt_in. intros y Hy. destruct (shape_parts SH) as [[-> _]|(NE & _ & _)]; [destruct Hy|].
  pose proof (minl_in (t := t) NE (ok_in (mid_keys K))) as HI. pose proof (blocks_lt S Hy HI). lia.
Qed.

Lemma get_mid C1 e C2 k : alt k (keys (concat C1)) -> agt k (keys (concat C2)) -> get k (concat (C1 ++ e :: C2)) = get k e.
Proof. intros A B. rewrite concat_mid, get_app_lt by assumption. now rewrite get_app_gt. Qed.
Lemma ins_mid C1 e C2 k v : alt k (keys (concat C1)) -> agt k (keys (concat C2)) ->
  ins k v (concat (C1 ++ e :: C2)) = concat (C1 ++ ins k v e :: C2).
Proof. intros A B. rewrite !concat_mid, ins_app_lt by assumption. now rewrite ins_app_gt. Qed.

Section Inv.
Variables (s : wlist) (ids : list nat) (bl : list (list (Z * V))) (ch : nat -> list nat).
Hypothesis I : winv s ids bl ch.
Notation ns := (wnodes s).

Lemma ch_ids i b : In b (ch i) -> In b ids.
Proof. induction i as [|i IH]; [now rewrite (w_ch0 I)|]. intros H. apply IH. now apply (w_chs I). Qed.

Lemma id_node b : In b ids -> exists c x, nc ns b = Some c /\ nth_error ns b = Some x /\ wc x = c.
Proof.
  intros H. destruct (Forall2_in_l (w_blk I) H) as (l1 & l2 & m1 & y & m2 & _ & _ & _ & (c & E & _) & _).
  destruct (nc_some E) as (x & Ex & Hx). eauto.
Qed.
Lemma id_bound b : In b ids -> b < length ns.
Proof. intros H. destruct (id_node H) as (c & x & _ & E & _). apply nth_error_Some. now rewrite E. Qed.

Lemma zero_bound : 0 < length ns.
Proof.
  pose proof (w_chain I) as C. pose proof (w_ht I) as HM. specialize (C 0). destruct (ch 0) as [|b l]; cbn in C.
  - assert (E : nfw ns 0 0 = Ok None) by (apply C; lia). unfold nfw, wfwd_at, wnode_at in E. destruct (nth_error ns 0) eqn:X; [|discriminate]. apply nth_error_Some. congruence.
  - destruct C as [E _]; [lia|]. unfold nfw, wfwd_at, wnode_at in E. destruct (nth_error ns 0) eqn:X; [|discriminate]. apply nth_error_Some. congruence.
Qed.

(** One level of a search or of the descent of an insert. *)
Lemma level_split k i l a : wchain (nfw ns i) a l -> incl l ids -> NoDup l ->
  exists l1 l2, l = l1 ++ l2 /\ (forall b, In b l1 -> (mx ns b < k)%Z) /\ (forall b, hd_error l2 = Some b -> (k <= mx ns b)%Z) /\
    w_pass (length ns) ns i a k = Ok (last l1 a) /\
    w_walk (length ns) ns i a k = Ok (match l2 with [] => inl (last l1 a) | b :: _ => if (k <? mn ns b)%Z then inl (last l1 a) else inr b end).
Proof.
  intros C HI ND. destruct (take_while (fun b => (mx ns b <? k)%Z) l) as (l1 & l2 & El & H1 & H2). subst l.
  exists l1, l2. split; [reflexivity|].
  assert (H1' : forall b, In b l1 -> (mx ns b < k)%Z) by (intros b Hb; specialize (H1 b Hb); lia).
  assert (H2' : forall b, hd_error l2 = Some b -> (k <= mx ns b)%Z) by (intros b Hb; specialize (H2 b Hb); lia).
  split; [assumption|]. split; [assumption|].
  assert (LF : length l1 <= length ns).
  { apply short_list.
    - clear -ND. induction l1; [constructor|]. inversion ND; subst. constructor; auto. intros X. apply H1. apply in_or_app. now left.
    - intros b Hb. apply id_bound, HI. apply in_or_app. now left. }
  revert LF. generalize (length ns) as fuel. clear ND H1 H2. revert a C. induction l1 as [|c l1 IH]; intros a C fuel LF.
  - cbn [app last] in *. destruct l2 as [|b l2]; cbn [wchain] in C; unfold nfw in C.
    + destruct fuel; cbn [w_pass w_walk]; rewrite C; auto.
    + destruct C as [C _]. destruct (@id_node b) as (c & x & Ec & Ex & Hx); [apply HI; now left|]. specialize (H2' b eq_refl). unfold mx in H2'. unfold mn. rewrite Ec in *.
      destruct fuel; cbn [w_pass w_walk]; rewrite C; cbn [bind]; unfold wnode_at; rewrite Ex; cbn [bind of_opt]; rewrite Hx;
        (destruct (Z.ltb_spec (wmax c) k); [lia|]; destruct (Z.gtb_spec k (wmax c)); [lia|]; destruct (k <? wmin c)%Z; auto).
  - cbn [app wchain] in C. unfold nfw in C at 1. destruct C as [C1 C2]. cbn [length] in LF. destruct fuel as [|fuel]; [lia|].
    destruct (@id_node c) as (cc & x & Ec & Ex & Hx); [apply HI; now left|]. pose proof (H1' c (or_introl eq_refl)) as HX. unfold mx in HX. rewrite Ec in HX.
    cbn [w_pass w_walk]. rewrite C1. cbn [bind]. unfold wnode_at. rewrite Ex. cbn [bind of_opt]. rewrite Hx.
    destruct (Z.ltb_spec (wmax cc) k); [|lia]. destruct (Z.gtb_spec k (wmax cc)); [|lia]. rewrite last_cons. apply IH; auto; [| |lia].
    + intros y Hy. apply HI. now right.
    + intros y Hy. apply H1'. now right.
Qed.

(** A start of level [i]: the head or a node of the level below the key. *)
Definition start (k : Z) (i a : nat) : Prop := a = 0 \/ (In a (ch i) /\ (mx ns a < k)%Z).

Lemma start_down k i a : start k (S i) a -> start k i a.
Proof. intros [->|[H1 H2]]; [now left|right]. split; [now apply (w_chs I)|assumption]. Qed.

Lemma level_ok k i a : start k i a -> i < M -> exists A l2, ch i = A ++ l2 /\ start k i (last A 0) /\
    (forall b, hd_error l2 = Some b -> (k <= mx ns b)%Z) /\
    w_pass (length ns) ns i a k = Ok (last A 0) /\
    w_walk (length ns) ns i a k = Ok (match l2 with [] => inl (last A 0) | b :: _ => if (k <? mn ns b)%Z then inl (last A 0) else inr b end).
Proof.
  intros HS Hi. pose proof (w_chain I Hi) as C.
  assert (exists P l, ch i = P ++ l /\ last P 0 = a /\ wchain (nfw ns i) a l /\ (P = [] \/ mx ns a < k)%Z /\ (P = [] -> a = 0)) as (P & l & E & HP & C' & Hm & H0).
  { destruct HS as [->|[HI Hm]].
    - exists [], (ch i). splits; auto.
    - apply in_split in HI as (p & q & E). exists (p ++ [a]), q. rewrite <- app_assoc. splits; auto.
      + now rewrite last_app_cons.
      + rewrite E in C. now apply wchain_tail in C.
      + intros X. apply app_eq_nil in X as [_ X]. discriminate. }
  assert (HI : incl l ids) by (intros b Hb; apply ch_ids with i; rewrite E; apply in_or_app; now right).
  assert (ND : NoDup l).
  { pose proof (w_chnd I i) as D. rewrite E in D. clear -D. induction P; auto. inversion D; auto. }
  destruct (@level_split k i l a C' HI ND) as (l1 & l2 & El & H1 & H2 & E1 & E2).
  assert (LA : last (P ++ l1) 0 = last l1 a).
  { rewrite <- HP. clear. revert P. generalize 0 at 1 2. induction P as [|x P IH]; [reflexivity|]. cbn [app]. destruct P as [|y P].
    - cbn [app]. now rewrite last_cons.
    - exact IH. }
  exists (P ++ l1), l2. rewrite LA, <- app_assoc, <- El. splits; auto.
  destruct (last_in l1 a) as [->|X].
  - destruct Hm as [HP0|Hm]; [left; now apply H0|].
    destruct P as [|x P]; [left; now apply H0|right]. split; [|assumption]. rewrite E, <- HP. apply in_or_app. left.
    rewrite last_cons. destruct (last_in P x) as [->|Y]; [now left|now right].
  - right. split; [rewrite E, El; apply in_or_app; right; apply in_or_app; now left|now apply H1].
Qed.

(** The bottom level. *)
Lemma split_bottom k : exists I1 I2 B1 B2, ids = I1 ++ I2 /\ bl = B1 ++ B2 /\ Forall2 (holds ns) I1 B1 /\ Forall2 (holds ns) I2 B2 /\
  (forall b, In b I1 -> (mx ns b < k)%Z) /\ (forall b, In b I2 -> (k <= mx ns b)%Z) /\ alt k (keys (concat B1)) /\
  match B2 with [] => True | _ :: B => agt k (keys (concat B)) end.
Proof.
  destruct (take_while (fun b => (mx ns b <? k)%Z) ids) as (I1 & I2 & E & H1 & H2).
  pose proof (w_blk I) as F. rewrite E in F. apply Forall2_app_inv_l in F as (B1 & B2 & F1 & F2 & EB).
  exists I1, I2, B1, B2. splits; auto.
  - intros b Hb. specialize (H1 b Hb). lia.
  - intros b Hb. destruct I2 as [|p I2]; [destruct Hb|]. specialize (H2 p eq_refl). destruct Hb as [->|Hb]; [lia|].
    apply f2_cons in F2 as (e & B3 & -> & Hp & F3). destruct (Forall2_in_l F3 Hb) as (l1 & l2 & m1 & y & m2 & _ & EB3 & _ & Hy & _).
    pose proof (w_shape I) as SH. pose proof (w_srt I) as SO. pose proof (w_key I) as KK. rewrite EB in SH, SO, KK. rewrite EB3 in SH, SO, KK.
    destruct (holds_mx Hp) as [Mp _]. destruct (holds_mx Hy) as [My _]. rewrite Mp in H2. rewrite My.
    assert (NE : y <> []).
    { destruct SH as [SH|SH]; [rewrite app_length in SH; cbn [length] in SH; rewrite app_length in SH; cbn [length] in SH; lia|].
      apply Forall_app in SH as [_ SH]. inversion SH as [|? ? _ SH']. apply Forall_app in SH' as [_ SH']. now inversion SH'. }
    assert (A : agt k (keys (concat (m1 ++ y :: m2)))) by (apply (above SH SO KK); lia).
    assert (IY : In (maxl t y) (keys y)). { apply maxl_in; [assumption|]. apply ok_in. change (B1 ++ e :: m1 ++ y :: m2) with (B1 ++ (e :: m1) ++ y :: m2) in KK. rewrite app_assoc in KK. exact (mid_keys KK). }
    rewrite agt_in in A. specialize (A (maxl t y)). cut (k < maxl t y)%Z; [lia|]. apply A. rewrite concat_mid, !keys_app. apply in_or_app. right. apply in_or_app. now left.
  - apply alt_in. intros x Hx. apply in_map_iff in Hx as ([kx vx] & <- & Hx). cbn [fst]. apply in_concat in Hx as (e & He & Hx).
    apply in_split in He as (c1 & c2 & ->). apply Forall2_app_inv_r in F1 as (j1 & j2 & F11 & F12 & ->). apply f2_cons_r in F12 as (b & l & -> & Hb & _).
    specialize (H1 b). assert (In b (j1 ++ b :: l)) as X by (apply in_or_app; right; now left). specialize (H1 X). destruct (holds_mx Hb) as [Mb _].
    pose proof (@maxl_ge _ t e kx) as G. cut (kx <= maxl t e)%Z; [lia|]. apply G. apply in_map_iff. exists (kx, vx). auto.
  - destruct B2 as [|e B]; [auto|]. apply f2_cons_r in F2 as (b & l & -> & Hb & _). specialize (H2 b eq_refl). destruct (holds_mx Hb) as [Mb _].
    pose proof (w_shape I) as SH. pose proof (w_srt I) as SO. pose proof (w_key I) as KK. rewrite EB in SH, SO, KK. apply (above SH SO KK). lia.
Qed.

Lemma bottom_ok k a I1 I2 : start k 0 a -> ids = I1 ++ I2 -> (forall b, In b I1 -> (mx ns b < k)%Z) -> (forall b, In b I2 -> (k <= mx ns b)%Z) ->
  w_pass (length ns) ns 0 a k = Ok (last I1 0) /\ start k 0 (last I1 0) /\
  w_walk (length ns) ns 0 a k = Ok (match I2 with [] => inl (last I1 0) | b :: _ => if (k <? mn ns b)%Z then inl (last I1 0) else inr b end).
Proof.
  intros HS E H1 H2. pose proof (w_ht I) as HM. destruct (@level_ok k 0 a HS) as (A & l2 & EA & HS' & HH & E1 & E2); [lia|].
  rewrite (w_ch0 I) in EA.
  assert (A = I1 /\ l2 = I2) as [-> ->].
  { assert (HA : last A 0 = 0 \/ (mx ns (last A 0%nat) < k)%Z) by (destruct HS' as [X|[_ X]]; auto).
    pose proof (w_nd I) as ND. rewrite EA in ND.
    assert (HL : A = [] \/ (In (last A 0) A /\ last A 0 <> 0)).
    { destruct A as [|x A]; [now left|right]. rewrite last_cons. assert (In (last A x) (x :: A)) as X by (destruct (last_in A x) as [->|]; [now left|now right]).
      split; [assumption|]. intros Z0. rewrite Z0 in X. apply NoDup_cons_iff in ND as [NI _]. apply NI. apply in_or_app. now left. }
    rewrite E in EA. clear -EA H1 H2 HH HA HL. revert A l2 EA HH HA HL. induction I1 as [|x I1 IH]; intros A l2 EA HH HA HL.
    - cbn [app] in EA. destruct A as [|y A]; [auto|]. exfalso. destruct HL as [|[HI HL]]; [discriminate|]. destruct HA as [|HA]; [contradiction|].
      assert (k <= mx ns (last (y :: A) 0%nat))%Z as X; [|lia]. apply H2. rewrite EA. apply in_or_app. now left.
    - destruct A as [|y A].
      + cbn [app] in EA. exfalso. specialize (HH x). rewrite <- EA in HH. specialize (HH eq_refl). specialize (H1 x (or_introl eq_refl)). lia.
      + cbn [app] in EA. injection EA as <- EA. destruct (IH (fun b Hb => H1 b (or_intror Hb)) A l2 EA HH) as [-> ->]; auto.
        * rewrite last_cons in HA. destruct A as [|z A]; [left; reflexivity|]. rewrite last_cons in *. destruct HL as [|[_ HL]]; [discriminate|]. rewrite !last_cons in HL. destruct HA; [contradiction|]. right. assumption.
        * destruct A as [|z A]; [now left|right]. destruct HL as [|[_ HL]]; [discriminate|]. rewrite !last_cons in *. split; [|assumption].
          destruct (last_in A z) as [->|]; [now left|now right]. }
  splits; auto.
Qed.

(** ** Search *)
Lemma search_node_ok k : forall i a, start k i a -> i < M -> exists o, w_search_node i ns a k = Ok o /\
  match o with
  | Some n => exists c e, nc ns n = Some c /\ crep t N c e /\ get k (concat bl) = get k e
  | None => get k (concat bl) = None
  end.
Proof.
  assert (HIT : forall b, In b ids -> (mn ns b <= k <= mx ns b)%Z -> exists c e, nc ns b = Some c /\ crep t N c e /\ get k (concat bl) = get k e).
  { intros b Hb [Hmn Hmx]. destruct (Forall2_in_l (w_blk I) Hb) as (l1 & l2 & m1 & y & m2 & _ & EB & _ & Hy & _).
    destruct (holds_mx Hy) as [A B]. destruct Hy as (c & E & R). exists c, y. splits; auto.
    pose proof (w_shape I) as SH. pose proof (w_srt I) as SO. pose proof (w_key I) as KK. rewrite EB in *.
    apply get_mid; [apply (below SH SO KK); lia|apply (above SH SO KK); lia]. }
  induction i as [|i IH]; intros a HS Hi.
  - destruct (split_bottom k) as (I1 & I2 & B1 & B2 & E1 & E2 & F1 & F2 & H1 & H2 & A & AB).
    destruct (@bottom_ok k a I1 I2 HS E1 H1 H2) as (_ & _ & EW). cbn [w_search_node]. rewrite EW. cbn [bind].
    destruct I2 as [|b I2].
    + inversion F2; subst B2. exists None. split; [reflexivity|]. rewrite E2, app_nil_r. now apply get_none_lt.
    + apply f2_cons in F2 as (e & B & -> & Hb & FB). destruct (Z.ltb_spec k (mn ns b)).
      * exists None. split; [reflexivity|]. rewrite E2, get_mid by assumption. apply get_none_gt, agt_in. intros x Hx. destruct (holds_mx Hb) as [_ Mb].
        pose proof (@minl_le _ t e x Hx). lia.
      * exists (Some b). split; [reflexivity|]. apply HIT; [rewrite E1; apply in_or_app; right; now left|]. split; [assumption|]. apply H2. now left.
  - destruct (@level_ok k (S i) a HS Hi) as (A & l2 & EA & HS' & HH & _ & EW). cbn [w_search_node]. rewrite EW. cbn [bind].
    assert (DOWN : exists o, w_search_node i ns (last A 0) k = Ok o /\
      match o with
      | Some n => exists c e, nc ns n = Some c /\ crep t N c e /\ get k (concat bl) = get k e
      | None => get k (concat bl) = None
      end) by (apply IH; [now apply start_down|lia]).
    destruct l2 as [|b l2]; [exact DOWN|]. destruct (Z.ltb_spec k (mn ns b)); [exact DOWN|].
    exists (Some b). split; [reflexivity|]. apply HIT; [apply ch_ids with (S i); rewrite EA; apply in_or_app; right; now left|]. split; [assumption|]. now apply HH.
Qed.

Theorem w_search_ok k : w_search N s k = Ok (get k (concat bl)).
Proof.
  unfold w_search. destruct (@search_node_ok k (wheight s) 0) as (o & E & H); [now left|exact (w_ht I)|]. rewrite E. cbn [bind].
  destruct o as [n|]; [|now rewrite H]. destruct H as (c & e & Ec & R & ->). destruct (nc_some Ec) as (x & Ex & <-). unfold wnode_at. rewrite Ex. cbn [bind of_opt].
  apply w_search_srep. now apply crep_srep in R.
Qed.

(** ** The descent of insert *)
Lemma descend_ok k I1 I2 : ids = I1 ++ I2 -> (forall b, In b I1 -> (mx ns b < k)%Z) -> (forall b, In b I2 -> (k <= mx ns b)%Z) ->
  forall i a u, start k i a -> i < M -> length u = M -> exists u', w_descend i ns a k u = Ok (last I1 0, u') /\ length u' = M /\
    forall j, if j <=? i then exists p, nth_error u' j = Some (Some p) /\ start k j p else nth_error u' j = nth_error u j.
Proof.
  intros E H1 H2. induction i as [|i IH]; intros a u HS Hi Lu; cbn [w_descend].
  - destruct (@bottom_ok k a I1 I2 HS E H1 H2) as (EP & HS' & _). rewrite EP. cbn [bind].
    destruct (@lset_some _ u 0 (Some (last I1 0))) as (u' & E'); [lia|]. rewrite E'. cbn [bind of_opt].
    exists u'. splits; [reflexivity|now rewrite (lset_length E')|]. intros j. pose proof (lset_nth j E') as Nj. destruct j; cbn [Nat.leb Nat.eqb] in *; [eauto|assumption].
  - destruct (@level_ok k (S i) a HS Hi) as (A & l2 & EA & HS' & HH & EP & _). rewrite EP. cbn [bind].
    destruct (@lset_some _ u (S i) (Some (last A 0))) as (u1 & E'); [lia|]. rewrite E'. cbn [bind of_opt].
    destruct (IH (last A 0) u1) as (u' & Eu & Lu' & Nu); [now apply start_down|lia|now rewrite (lset_length E')|].
    exists u'. splits; auto. intros j. specialize (Nu j). pose proof (lset_nth j E') as Nj.
    destruct (Nat.leb_spec j i); destruct (Nat.leb_spec j (S i)); try lia; auto; destruct (Nat.eqb_spec j (S i)); try lia.
    + subst j. exists (last A 0). split; [congruence|assumption].
    + congruence.
Qed.
End Inv.
End WoP.
