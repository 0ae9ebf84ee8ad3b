(** Correctness of rank selection, of findSplitKey and of the min / max key searches. *)
From Verif Require Import Base RankModel.
From Coq Require Import Permutation.
Open Scope Z_scope.

Definition below (x : Z) (l : list Z) : nat := length (filter (fun y => y <? x) l).

Lemma below_app x a b : below x (a ++ b) = (below x a + below x b)%nat.
Proof. unfold below. now rewrite filter_app, app_length. Qed.

Lemma below_perm x a b : Permutation a b -> below x a = below x b.
Proof.
  intros P. unfold below. apply Permutation_length.
  induction P; simpl; repeat match goal with |- context [if ?c then _ else _] => destruct c end;
  try constructor; auto. eapply perm_trans; eauto.
Qed.

Lemma below_all x l : (forall y, In y l -> y < x) -> below x l = length l.
Proof.
  induction l as [|a l IH]; intros H; [reflexivity|]. unfold below in *. cbn [filter].
  destruct (Z.ltb_spec a x) as [_|L]; [|specialize (H a (or_introl eq_refl)); lia].
  cbn [length]. f_equal. apply IH. intros; apply H; now right.
Qed.

Lemma below_none x l : (forall y, In y l -> x <= y) -> below x l = 0%nat.
Proof.
  induction l as [|a l IH]; intros H; [reflexivity|]. unfold below in *. cbn [filter].
  destruct (Z.ltb_spec a x) as [L|_]; [specialize (H a (or_introl eq_refl)); lia|].
  apply IH. intros; apply H; now right.
Qed.

Lemma lget_app {A} (p : list A) x q i : i = length p -> lget (p ++ x :: q) i = Ok x.
Proof. intros ->. unfold lget. rewrite nth_error_app2 by lia. now rewrite Nat.sub_diag. Qed.

Lemma lswap_same {A} (p : list A) x q i : i = length p -> lswap (p ++ x :: q) i i = Ok (p ++ x :: q).
Proof.
  intros E. unfold lswap. rewrite lget_app by exact E. cbn [bind].
  rewrite lset_app_at by exact E. cbn [of_opt bind]. now rewrite lset_app_at by exact E.
Qed.

Lemma lswap_app {A} (p : list A) x q y r i j : i = length p -> j = (length p + S (length q))%nat ->
  lswap (p ++ x :: q ++ y :: r) i j = Ok (p ++ y :: q ++ x :: r).
Proof.
  intros Ei Ej. unfold lswap. rewrite lget_app by exact Ei. cbn [bind].
  assert (G : lget (p ++ x :: q ++ y :: r) j = Ok y).
  { change (x :: q ++ y :: r) with ((x :: q) ++ y :: r). rewrite app_assoc. apply lget_app.
    rewrite app_length. cbn [length]. lia. }
  rewrite G. cbn [bind].
  rewrite lset_app_at by exact Ei. cbn [of_opt bind].
  replace (p ++ y :: q ++ y :: r) with ((p ++ y :: q) ++ y :: r) by now rewrite <- app_assoc.
  rewrite lset_app_at by (rewrite app_length; cbn [length]; lia). cbn [of_opt].
  now rewrite <- app_assoc.
Qed.

Lemma insert_sorted_perm x l : Permutation (insert_sorted x l) (x :: l).
Proof.
  induction l as [|y l IH]; simpl; [auto|]. destruct (x <=? y); [auto|].
  rewrite IH. apply perm_swap.
Qed.
Lemma isort_perm l : Permutation (isort l) l.
Proof. induction l as [|x l IH]; simpl; [auto|]. rewrite insert_sorted_perm. now constructor. Qed.

Lemma findMedian_ok g : g <> [] -> exists s m r, findMedian g = Ok (s, m) /\ Permutation s g /\ Permutation (m :: r) g.
Proof.
  intros H. unfold findMedian. pose proof (isort_perm g) as P.
  assert (L : (length g / 2 < length (isort g))%nat).
  { rewrite (Permutation_length P). destruct g; [congruence|]. cbn [length]. lia. }
  destruct (@split_at _ (isort g) (length g / 2)%nat) as (p & q & E & Lp); [lia|].
  rewrite E in *. rewrite app_length in L. destruct q as [|m q]; [cbn [length] in L; lia|].
  rewrite lget_app by auto. cbn [bind]. exists (p ++ m :: q), m, (p ++ q). splits; auto.
  rewrite <- P. apply Permutation_middle.
Qed.

Lemma medians_ok parts : forall data, (5 * parts < length data + 5 <= 5 * parts + 5)%nat ->
  exists d ms r, medians parts data = Ok (d, ms) /\ length ms = parts /\
    Permutation d data /\ Permutation (ms ++ r) data.
Proof.
  induction parts as [|p IH]; intros data H.
  - destruct data; [|cbn [length] in H; lia]. exists [], [], []. now splits.
  - cbn [medians].
    destruct (@findMedian_ok (firstn 5 data)) as (s & m & r & E & Ps & Pm).
    { destruct data; [cbn [length] in H; lia|discriminate]. }
    destruct (IH (skipn 5 data)) as (d & ms & r2 & E2 & Lm & Pd & Pr).
    { rewrite skipn_length. lia. }
    rewrite E. cbn [bind]. rewrite E2. cbn [bind fst snd].
    exists (s ++ d), (m :: ms), (r ++ r2). splits; auto.
    + cbn [length]. lia.
    + rewrite Ps, Pd. now rewrite firstn_skipn.
    + rewrite <- (firstn_skipn 5 data). rewrite <- Pm, <- Pr. cbn [app]. constructor.
      rewrite !app_assoc. apply Permutation_app_tail. apply Permutation_app_comm.
Qed.

Lemma find_first_ok x : forall P Q n pre, ~ In x P -> (length P <= n)%nat ->
  find_first n (length pre) (pre ++ P ++ x :: Q) x = Ok (length pre + length P)%nat
  \/ length P = n /\ find_first n (length pre) (pre ++ P ++ x :: Q) x = Ok (length pre + n)%nat.
Proof.
  induction P as [|y P IH]; intros Q n pre NI L.
  - destruct n as [|n]; [right; split; auto; cbn; f_equal; lia|]. left. cbn [find_first app].
    rewrite lget_app by auto. cbn [bind]. rewrite Z.eqb_refl. cbn [length]. f_equal; lia.
  - destruct n as [|n]; [cbn [length] in L; lia|]. cbn [length] in *.
    cbn [find_first app]. rewrite lget_app by auto. cbn [bind].
    destruct (Z.eqb_spec y x) as [->|NE]; [exfalso; apply NI; now left|].
    specialize (IH Q n (pre ++ [y])). rewrite app_length in IH. cbn [length] in IH.
    rewrite <- !app_assoc in IH. cbn [app] in IH. rewrite Nat.add_1_r in IH.
    destruct IH as [IH|[E IH]]; [intros HI; apply NI; now right|lia| |].
    + left. rewrite IH. f_equal; lia.
    + right. split; [lia|]. rewrite IH. f_equal; lia.
Qed.

(** The Lomuto loop. *)
Lemma lomuto x z : forall n A B R, length R = n -> (forall a, In a A -> a <= x) -> (forall b, In b B -> x < b) ->
  exists A' B',
    for_up (length A + length B) n (fun j p =>
      do d <- lget (fst p) j;
      if d <=? x then do data <- lswap (fst p) (snd p) j; Ok (data, S (snd p)) else Ok p)
      (A ++ B ++ R ++ [z], length A) = Ok (A' ++ B' ++ [z], length A') /\
    Permutation (A' ++ B') (A ++ B ++ R) /\
    (forall a, In a A' -> a <= x) /\ (forall b, In b B' -> x < b).
Proof.
  induction n as [|n IH]; intros A B R LR HA HB.
  - destruct R; [|discriminate]. exists A, B. rewrite app_nil_r. splits; auto.
  - destruct R as [|d R]; [discriminate|]. injection LR as LR.
    cbn [for_up fst snd app].
    assert (G : lget (A ++ B ++ d :: R ++ [z]) (length A + length B) = Ok d).
    { rewrite app_assoc. apply lget_app. now rewrite app_length. }
    rewrite G. cbn [bind].
    destruct (Z.leb_spec d x) as [L|L].
    + destruct B as [|b B].
      * cbn [app length]. rewrite Nat.add_0_r. rewrite lswap_same by auto. cbn [bind].
        destruct (IH (A ++ [d]) [] R) as (A' & B' & E & P & HA' & HB'); auto.
        { intros a Ha. apply in_app_iff in Ha. destruct Ha as [Ha|[<-|[]]]; auto. }
        exists A', B'. rewrite app_length in E. cbn [length] in E.
        rewrite <- app_assoc in E. cbn [app] in E.
        rewrite Nat.add_0_r, Nat.add_1_r in E. rewrite E. splits; auto.
        rewrite P. now rewrite <- app_assoc.
      * cbn [app length].
        rewrite lswap_app by (try lia; auto). cbn [bind].
        destruct (IH (A ++ [d]) (B ++ [b]) R) as (A' & B' & E & P & HA' & HB'); auto.
        { intros a Ha. apply in_app_iff in Ha. destruct Ha as [Ha|[<-|[]]]; auto. }
        { intros a Ha. apply HB. apply in_app_iff in Ha. destruct Ha as [Ha|[<-|[]]]; [now right|now left]. }
        exists A', B'. rewrite !app_length in E. cbn [length] in E.
        rewrite <- !app_assoc in E. cbn [app] in E.
        replace (length A + 1 + (length B + 1))%nat with (S (length A + S (length B))) in E by lia.
        rewrite Nat.add_1_r in E. rewrite E. splits; auto.
        rewrite P. rewrite <- !app_assoc. apply Permutation_app_head. cbn [app].
        transitivity (b :: B ++ d :: R); [|auto].
        transitivity (d :: b :: B ++ R); [constructor; symmetry; apply Permutation_middle|].
        etransitivity; [apply perm_swap|]. constructor. apply Permutation_middle.
    + destruct (IH A (B ++ [d]) R) as (A' & B' & E & P & HA' & HB'); auto.
      { intros b Hb. apply in_app_iff in Hb. destruct Hb as [Hb|[<-|[]]]; auto. }
      exists A', B'. rewrite app_length in E. cbn [length] in E. rewrite <- !app_assoc in E. cbn [app] in E.
      replace (length A + (length B + 1))%nat with (S (length A + length B)) in E by lia.
      cbn [bind]. rewrite E. splits; auto. rewrite P. rewrite <- !app_assoc. reflexivity.
Qed.

Lemma partition_ok data endp x : NoDup data -> In x data -> length data = S endp ->
  exists A B, partition data endp x = Ok (A ++ x :: B, length A) /\ Permutation (A ++ x :: B) data /\
    (forall a, In a A -> a < x) /\ (forall b, In b B -> x < b).
Proof.
  intros ND HI L. unfold partition.
  apply in_split in HI. destruct HI as (P & Q & ->).
  pose proof (NoDup_remove_2 _ _ _ ND) as NI.
  rewrite app_length in L. cbn [length] in L.
  (* after the first swap the pivot is last *)
  assert (Sw : exists R, length R = endp /\ Permutation R (P ++ Q) /\
    (do i <- find_first endp 0 (P ++ x :: Q) x; lswap (P ++ x :: Q) i endp) = Ok (R ++ [x])).
  { assert (FI : find_first endp 0 (P ++ x :: Q) x = Ok (length P)).
    { destruct (@find_first_ok x P Q endp []) as [E|[EL E]].
      - intros H. apply NI. apply in_app_iff. now left.
      - lia.
      - exact E.
      - cbn [length app Nat.add] in E. rewrite E. f_equal. lia. }
    rewrite FI. cbn [bind].
    destruct Q as [|q Q _] using rev_ind.
    - exists P. rewrite app_nil_r. cbn [length] in L. splits; auto; [lia|].
      assert (EE : endp = length P) by lia. rewrite EE. now rewrite lswap_same by auto.
    - rewrite app_length in L. cbn [length] in L. exists (P ++ q :: Q). splits.
      + rewrite app_length. cbn [length]. lia.
      + apply Permutation_app_head. apply Permutation_cons_append.
      + rewrite lswap_app by (auto; lia). now rewrite <- app_assoc. }
  destruct Sw as (R & LR & PR & Sw).
  destruct (find_first endp 0 (P ++ x :: Q) x) as [i| |]; cbn [bind] in Sw |- *; try discriminate.
  rewrite Sw. cbn [bind].
  destruct (@lomuto x x endp [] [] R) as (A & B & E & PA & HA & HB); auto; try contradiction.
  cbn [app length Nat.add] in E. rewrite E. cbn [bind fst snd].
  assert (Sub : forall y, In y A -> In y (P ++ Q)).
  { intros y Hy. eapply Permutation_in; [exact PR|]. eapply Permutation_in; [exact PA|].
    apply in_app_iff. now left. }
  assert (PP : Permutation (x :: A ++ B) (P ++ x :: Q)).
  { rewrite PA. cbn [app]. rewrite PR. apply Permutation_middle. }
  assert (HA' : forall a, In a A -> a < x).
  { intros a Ha. specialize (HA a Ha). destruct (Z.eq_dec a x) as [->|]; [|lia].
    exfalso. apply NI. now apply Sub. }
  destruct B as [|b B].
  - exists A, []. cbn [app]. rewrite app_nil_r in *.
    assert (EL : endp = length A).
    { apply Permutation_length in PA. cbn [app] in PA. lia. }
    rewrite EL, lswap_same by auto. cbn [bind]. splits; auto.
    rewrite <- PP. symmetry. apply Permutation_cons_append.
  - exists A, (B ++ [b]). cbn [app].
    assert (EL : endp = (length A + S (length B))%nat).
    { apply Permutation_length in PA. rewrite app_length in PA. cbn [app length] in PA. lia. }
    rewrite lswap_app by auto. cbn [bind]. splits; auto.
    + rewrite <- PP. rewrite <- Permutation_middle. constructor. apply Permutation_app_head.
      symmetry. apply Permutation_cons_append.
    + intros y Hy. apply HB. apply in_app_iff in Hy. destruct Hy as [Hy|[<-|[]]]; [now right|now left].
Qed.

Lemma of_to_size t z : 1 <= kt_bits t <= 64 -> kt_in t z -> of_size t (to_size z) = z.
Proof.
  unfold kt_in, kt_min, kt_max, of_size, to_size. intros Hb Hz.
  assert (P : 2 ^ 64 = 2 ^ kt_bits t * 2 ^ (64 - kt_bits t)).
  { rewrite <- Z.pow_add_r by lia. f_equal; lia. }
  assert (P1 : 0 < 2 ^ kt_bits t) by (apply Z.pow_pos_nonneg; lia).
  assert (P2 : 0 < 2 ^ (64 - kt_bits t)) by (apply Z.pow_pos_nonneg; lia).
  assert (H2 : 2 ^ kt_bits t = 2 * 2 ^ (kt_bits t - 1)).
  { replace (kt_bits t) with (1 + (kt_bits t - 1)) at 1 by lia. rewrite Z.pow_add_r by lia. reflexivity. }
  rewrite P. generalize dependent (2 ^ (64 - kt_bits t)). generalize dependent (2 ^ kt_bits t).
  generalize (2 ^ (kt_bits t - 1)). intros h w Pw P1 Ew c Pc Hc.
  assert (Em : forall y, (y mod (w * c)) mod w = y mod w).
  { intros y. rewrite Z.rem_mul_r by lia. rewrite (Z.mul_comm w (_ mod c)), Z.mod_add by lia.
    apply Z.mod_mod. lia. }
  destruct (kt_signed t).
  - rewrite Z.add_mod, Em by lia. rewrite <- Z.add_mod by lia.
    rewrite Z.mod_small by lia. lia.
  - rewrite Em. apply Z.mod_small. lia.
Qed.

Lemma NoDup_app_left {A} (a b : list A) : NoDup (a ++ b) -> NoDup a.
Proof. induction a as [|x a IH]; simpl; intros H; [constructor|]. inversion H; subst.
  constructor; auto. intros HI. apply H2. apply in_app_iff. now left. Qed.
Lemma NoDup_app_right {A} (a b : list A) : NoDup (a ++ b) -> NoDup b.
Proof. induction a as [|x a IH]; simpl; intros H; [auto|]. inversion H; auto. Qed.

Theorem elementOfRankK_ok t : 1 <= kt_bits t <= 64 -> forall fuel k data,
  (length data < fuel)%nat -> NoDup data -> (forall d, In d data -> kt_in t d) ->
  (1 <= k <= length data)%nat ->
  exists x, elementOfRankK fuel t k data = Ok (to_size x) /\ In x data /\ below x data = (k - 1)%nat.
Proof.
  intros Hb. induction fuel as [|f IH]; intros k data Hf ND HK Hk; [lia|].
  cbn [elementOfRankK].
  destruct (length data) as [|len1] eqn:EL; [lia|]. destruct k as [|k1]; [lia|]. rewrite <- EL in *.
  destruct (@medians_ok ((length data + 4) / 5)%nat data) as (d & ms & r & Em & Lm & Pd & Pm).
  { lia. }
  rewrite Em. cbn [bind fst snd].
  assert (Mom : exists x, (if (length ms =? 1)%nat then lget ms 0
     else do s <- elementOfRankK f t (length ms / 2)%nat ms; Ok (of_size t s)) = Ok x /\ In x data).
  { assert (Sub : forall y, In y ms -> In y data).
    { intros y Hy. eapply Permutation_in; [exact Pm|]. apply in_app_iff. now left. }
    destruct (Nat.eqb_spec (length ms) 1) as [E1|N1].
    - destruct ms as [|m ms]; [discriminate|]. exists m. split; [reflexivity|]. apply Sub. now left.
    - destruct (IH (length ms / 2)%nat ms) as (x & E & HI & _).
      + lia.
      + apply NoDup_app_left with r. eapply Permutation_NoDup; [symmetry; exact Pm|exact ND].
      + auto.
      + lia.
      + exists x. rewrite E. cbn [bind]. rewrite of_to_size by auto. auto. }
  destruct Mom as (x & Ex & Hx). rewrite Ex. cbn [bind].
  destruct (@partition_ok d len1 x) as (A & B & Ep & PP & HA & HB).
  { eapply Permutation_NoDup; [symmetry; exact Pd|exact ND]. }
  { eapply Permutation_in; [symmetry; exact Pd|exact Hx]. }
  { apply Permutation_length in Pd. lia. }
  rewrite Ep. cbn [bind fst snd].
  assert (PD : Permutation (A ++ x :: B) data) by (rewrite PP; exact Pd).
  assert (NDP : NoDup (A ++ x :: B)) by (eapply Permutation_NoDup; [symmetry; exact PD|exact ND]).
  assert (LL : (length A + S (length B) = length data)%nat).
  { rewrite <- (Permutation_length PD). rewrite app_length. reflexivity. }
  destruct (Nat.eqb_spec (length A) k1) as [E|NE].
  - rewrite lget_app by auto. cbn [bind]. exists x. splits; auto.
    rewrite <- (below_perm x PD), below_app, below_all by auto.
    rewrite below_none; [lia|]. intros y [<-|Hy]; [lia|]. specialize (HB y Hy). lia.
  - destruct (Nat.ltb_spec k1 (length A)) as [Lt|Ge].
    + rewrite firstn_app, firstn_all, Nat.sub_diag. cbn [firstn]. rewrite app_nil_r.
      destruct (IH (S k1) A) as (y & E & HI & Hr).
      * lia.
      * now apply NoDup_app_left in NDP.
      * intros y Hy. apply HK. eapply Permutation_in; [exact PD|]. apply in_app_iff. now left.
      * lia.
      * exists y. rewrite E. splits; auto.
        { eapply Permutation_in; [exact PD|]. apply in_app_iff. now left. }
        rewrite <- (below_perm y PD), below_app, Hr.
        rewrite below_none; [lia|]. specialize (HA y HI).
        intros z [<-|Hz]; [lia|]. specialize (HB z Hz). lia.
    + replace (skipn (S (length A)) (A ++ x :: B)) with B.
      2:{ rewrite skipn_app, skipn_all2 by lia.
          replace (S (length A) - length A)%nat with 1%nat by lia. reflexivity. }
      destruct (IH (S k1 - length A - 1)%nat B) as (y & E & HI & Hr).
      * lia.
      * apply NoDup_app_right in NDP. now inversion NDP.
      * intros y Hy. apply HK. eapply Permutation_in; [exact PD|]. apply in_app_iff. right. now right.
      * lia.
      * exists y. rewrite E. specialize (HB y HI). splits; auto.
        { eapply Permutation_in; [exact PD|]. apply in_app_iff. right. now right. }
        rewrite <- (below_perm y PD), below_app.
        rewrite below_all by (intros z Hz; specialize (HA z Hz); lia).
        change (x :: B) with ([x] ++ B). rewrite below_app, Hr.
        rewrite below_all by (intros z [<-|[]]; lia). cbn [length]. lia.
Qed.

(** The position found by the marking loop, and the marks. *)
Lemma to_size_inj t a b : 1 <= kt_bits t <= 64 -> kt_in t a -> kt_in t b -> to_size a = to_size b -> a = b.
Proof. intros Hb Ha Hc E. rewrite <- (of_to_size Hb Ha), <- (of_to_size Hb Hc). now rewrite E. Qed.

Lemma mark_bits s : forall data i pos, fst (mark s i data pos) = map (fun d => to_size d <? s) data.
Proof. induction data as [|d data IH]; intros i pos; simpl; [reflexivity|]. f_equal. apply IH. Qed.

Lemma mark_absent s : forall data i pos, (forall d, In d data -> to_size d <> s) -> snd (mark s i data pos) = pos.
Proof.
  induction data as [|d data IH]; intros i pos H; [reflexivity|]. cbn [mark fst snd].
  rewrite IH by (intros; apply H; now right).
  specialize (H d (or_introl eq_refl)). destruct (to_size d <? s); auto.
  destruct (Z.eqb_spec (to_size d) s); congruence.
Qed.

Lemma mark_pos t x : 1 <= kt_bits t <= 64 -> kt_in t x -> forall P Q i pos,
  (forall d, In d P -> kt_in t d) -> (forall d, In d Q -> kt_in t d) ->
  ~ In x Q -> snd (mark (to_size x) i (P ++ x :: Q) pos) = Some (i + length P)%nat.
Proof.
  intros Hb Hx. induction P as [|p P IH]; intros Q i pos HP HQ NI.
  - cbn [app mark snd]. rewrite mark_absent.
    + rewrite Z.ltb_irrefl, Z.eqb_refl. f_equal. cbn [length]. lia.
    + intros d Hd E. apply to_size_inj with (t := t) in E; auto. congruence.
  - cbn [app mark snd]. rewrite IH; auto; [|intros; apply HP; now right]. f_equal. cbn [length]. lia.
Qed.

(** findSplitKey on an array of distinct keys, whatever their signs: the returned position is
    that of the key with [(M+1)/2] smaller keys; the marks compare the keys as size_t. *)
Theorem findSplitKey_ok t data : 1 <= kt_bits t <= 64 -> (2 <= length data)%nat ->
  NoDup data -> (forall d, In d data -> kt_in t d) ->
  exists x pos, findSplitKey t data = Ok (map (fun d => to_size d <? to_size x) data, pos) /\
    nth_error data pos = Some x /\ below x data = ((length data + 1) / 2)%nat.
Proof.
  intros Hb HM ND HK. unfold findSplitKey.
  destruct (@elementOfRankK_ok t Hb (S (length data)) ((length data + 1) / 2 + 1)%nat data)
    as (x & E & HI & Hr); auto; [lia|].
  rewrite E. cbn [bind]. apply in_split in HI. destruct HI as (P & Q & EQ). rewrite EQ in *.
  apply NoDup_remove_2 in ND.
  assert (HP : snd (mark (to_size x) 0 (P ++ x :: Q) None) = Some (0 + length P)%nat).
  { apply mark_pos with (t := t); auto.
    - apply HK. apply in_app_iff. right. now left.
    - intros d Hd. apply HK. apply in_app_iff. now left.
    - intros d Hd. apply HK. apply in_app_iff. right. now right.
    - intros H. apply ND. apply in_app_iff. now right. }
  rewrite HP, mark_bits. cbn [of_opt bind]. exists x, (length P). splits; auto.
  - rewrite nth_error_app2 by lia. now rewrite Nat.sub_diag.
  - lia.
Qed.

Lemma to_size_nonneg t z : 1 <= kt_bits t <= 64 -> kt_in t z -> 0 <= z -> to_size z = z.
Proof.
  unfold kt_in, kt_max, to_size. intros Hb [_ H] H0. apply Z.mod_small. split; [exact H0|].
  assert (2 ^ kt_bits t <= 2 ^ 64) by (apply Z.pow_le_mono_r; lia).
  assert (2 ^ (kt_bits t - 1) <= 2 ^ 64) by (apply Z.pow_le_mono_r; lia).
  destruct (kt_signed t); lia.
Qed.

Theorem findSplitKey_nonneg t data : 1 <= kt_bits t <= 64 -> (2 <= length data)%nat ->
  NoDup data -> (forall d, In d data -> kt_in t d /\ 0 <= d) ->
  exists x pos, findSplitKey t data = Ok (map (fun d => d <? x) data, pos) /\
    nth_error data pos = Some x /\ below x data = ((length data + 1) / 2)%nat.
Proof.
  intros Hb HM ND HK. destruct (@findSplitKey_ok t data Hb HM ND) as (x & pos & E & Hx & Hr).
  { intros d Hd. now apply HK. }
  exists x, pos. splits; auto. rewrite E. do 2 f_equal. apply map_ext_in. intros d Hd.
  apply nth_error_In in Hx. rewrite !to_size_nonneg with (t := t); auto; now apply HK.
Qed.

(** ** Minimum / maximum searches.
    [better] is a strict total order on keys, [Z.ltb] or [Z.gtb]. *)
Definition order (better : Z -> Z -> bool) : Prop :=
  (forall a, better a a = false) /\
  (forall a b, better a b = true -> better b a = false) /\
  (forall a b c, better a b = false -> better b c = false -> better a c = false).

Lemma order_ltb : order Z.ltb. Proof. unfold order. splits; intros; lia. Qed.
Lemma order_gtb : order Z.gtb. Proof. unfold order. splits; intros; lia. Qed.

(** Scanning the cells selected by [sel]. *)
Lemma ext_scan better (get : nat -> res (option Z)) (val : nat -> option Z) : order better ->
  forall n lo c p, (forall i, (lo <= i < lo + n)%nat -> get i = Ok (val i)) ->
  exists c' p', for_up lo n (fun i r =>
      do o <- get i;
      match o with Some k => if better k (fst r) then Ok (k, i) else Ok r | None => Ok r end) (c, p) = Ok (c', p') /\
    (c' = c /\ p' = p \/ (lo <= p' < lo + n)%nat /\ val p' = Some c' /\ better c' c = true) /\
    better c c' = false /\
    (forall i k, (lo <= i < lo + n)%nat -> val i = Some k -> better k c' = false).
Proof.
  intros (O1 & O2 & O3). induction n as [|n IH]; intros lo c p H.
  - exists c, p. cbn [for_up]. splits; auto. intros; lia.
  - cbn [for_up fst]. rewrite (H lo) by lia. cbn [bind].
    assert (H' : forall i, (S lo <= i < S lo + n)%nat -> get i = Ok (val i)) by (intros; apply H; lia).
    destruct (val lo) as [k|] eqn:EV; [destruct (better k c) eqn:EB|]; cbn [bind].
    + destruct (IH (S lo) k lo H') as (c' & p' & E & C & G & A). exists c', p'. rewrite E. splits; auto.
      * destruct C as [[-> ->]|(Hr & Hv & HB)].
        -- right. splits; auto. lia.
        -- right. splits; auto; [lia|lia|].
           destruct (better c' c) eqn:EC; auto.
           (* c' better than k, k better than c, so c' better than c *)
           specialize (O3 c' c k EC (O2 _ _ EB)). congruence.
      * apply O3 with k; auto.
      * intros i k' Hi Hv. destruct (Nat.eq_dec i lo) as [->|N].
        -- assert (k' = k) by congruence. now subst.
        -- apply A with i; auto. lia.
    + destruct (IH (S lo) c p H') as (c' & p' & E & C & G & A). exists c', p'. rewrite E. splits; auto.
      * destruct C as [[-> ->]|(Hr & Hv & HB)]; [now left|right; splits; auto; lia].
      * intros i k' Hi Hv. destruct (Nat.eq_dec i lo) as [->|N].
        -- assert (k' = k) by congruence. subst. apply O3 with c; auto.
        -- apply A with i; auto. lia.
    + destruct (IH (S lo) c p H') as (c' & p' & E & C & G & A). exists c', p'. rewrite E. splits; auto.
      * destruct C as [[-> ->]|(Hr & Hv & HB)]; [now left|right; splits; auto; lia].
      * intros i k' Hi Hv. destruct (Nat.eq_dec i lo) as [->|N].
        -- congruence.
        -- apply A with i; auto. lia.
Qed.

Lemma find_ext_ok better keys xs rest : order better -> keys = map Some xs ++ rest -> xs <> [] ->
  exists pos m, find_ext better keys (length xs) = Ok pos /\ nth_error xs pos = Some m /\
    (forall y, In y xs -> better y m = false).
Proof.
  intros HO -> NE. unfold find_ext.
  assert (G : forall i, (i < length xs)%nat -> exists y, nth_error xs i = Some y /\ aget (map Some xs ++ rest) i = Ok y).
  { intros i Hi. destruct (nth_error xs i) as [y|] eqn:E; [|apply nth_error_None in E; lia].
    exists y. split; auto. unfold aget. rewrite nth_error_app1 by (rewrite map_length; lia).
    rewrite nth_error_map, E. reflexivity. }
  destruct xs as [|x0 xs]; [congruence|]. destruct (G 0%nat) as (y0 & E0 & A0); [cbn [length]; lia|].
  cbn [nth_error] in E0. injection E0 as <-. rewrite A0. cbn [bind].
  set (L := x0 :: xs) in *.
  destruct (@ext_scan better (fun i => do k <- aget (map Some L ++ rest) i; Ok (Some k)) (fun i => nth_error L i)
              HO (length L - 1) 1 x0 0) as (c & p & E & C & B & A).
  { intros i Hi. destruct (G i) as (y & E & AG); [lia|]. rewrite AG, E. reflexivity. }
  rewrite for_up_ext with (g := fun i r => do o <- (do k <- aget (map Some L ++ rest) i; Ok (Some k));
      match o with Some k => if better k (fst r) then Ok (k, i) else Ok r | None => Ok r end).
  2:{ intros i s Hi. destruct (G i) as (y & _ & AG); [lia|]. rewrite AG. reflexivity. }
  rewrite E. cbn [bind snd]. exists p, c. splits; auto.
  - destruct C as [[-> ->]|(_ & H & _)]; [reflexivity|exact H].
  - intros y Hy. apply In_nth_error in Hy. destruct Hy as (i & Hi).
    destruct i as [|i].
    + cbn in Hi. injection Hi as <-. exact B.
    + apply A with (S i); auto. assert (S i < length L)%nat by (apply nth_error_Some; congruence). lia.
Qed.

Theorem findMinKeyPos_ok keys xs rest : keys = map Some xs ++ rest -> xs <> [] ->
  exists pos m, findMinKeyPos keys (length xs) = Ok pos /\ nth_error xs pos = Some m /\
    (forall y, In y xs -> m <= y).
Proof.
  intros E NE. destruct (find_ext_ok order_ltb E NE) as (p & m & H1 & H2 & H3).
  exists p, m. splits; auto. intros y Hy. specialize (H3 y Hy). lia.
Qed.
Theorem findMaxKeyPos_ok keys xs rest : keys = map Some xs ++ rest -> xs <> [] ->
  exists pos m, findMaxKeyPos keys (length xs) = Ok pos /\ nth_error xs pos = Some m /\
    (forall y, In y xs -> y <= m).
Proof.
  intros E NE. destruct (find_ext_ok order_gtb E NE) as (p & m & H1 & H2 & H3).
  exists p, m. splits; auto. intros y Hy. specialize (H3 y Hy). lia.
Qed.

(** [live keys bits i k]: position [i] is in use and holds [k]. *)
Definition live (keys : arr Z) (bits : list bool) (i : nat) (k : Z) : Prop :=
  nth_error bits i = Some true /\ nth_error keys i = Some (Some k).
(** Every used position of a node with [N] slots holds a key. *)
Definition bits_ok (keys : arr Z) (bits : list bool) (N : nat) : Prop :=
  length keys = N /\ length bits = N /\
  forall i, nth_error bits i = Some true -> exists k, nth_error keys i = Some (Some k).

Definition bval (keys : arr Z) (bits : list bool) (i : nat) : option Z :=
  match nth_error bits i, nth_error keys i with Some true, Some (Some k) => Some k | _, _ => None end.
Lemma bval_live keys bits i k : bval keys bits i = Some k <-> live keys bits i k.
Proof.
  unfold bval, live. destruct (nth_error bits i) as [[]|]; destruct (nth_error keys i) as [[]|];
  split; intuition congruence.
Qed.

Definition bget (keys : arr Z) (bits : list bool) (i : nat) : res (option Z) :=
  do b <- lget bits i; if b then do k <- aget keys i; Ok (Some k) else Ok None.

Lemma bget_ok keys bits N i : bits_ok keys bits N -> (i < N)%nat -> bget keys bits i = Ok (bval keys bits i).
Proof.
  intros (Lk & Lb & H) Hi. unfold bget, bval, lget, aget.
  destruct (nth_error bits i) as [b|] eqn:EB; [|apply nth_error_None in EB; lia].
  cbn [of_opt bind]. destruct b; [|reflexivity]. destruct (H i EB) as (k & E). rewrite E. reflexivity.
Qed.

Lemma find_ext_bits_ok better lim keys bits N : order better -> bits_ok keys bits N ->
  (exists i k, live keys bits i k) ->
  (forall i k, live keys bits i k -> k = lim \/ better k lim = true) ->
  exists pos, find_ext_bits better lim keys bits N = Ok pos /\
    ((exists m, live keys bits pos m /\ better m lim = true /\ forall i k, live keys bits i k -> better k m = false)
     \/ pos = 0%nat /\ forall i k, live keys bits i k -> k = lim).
Proof.
  intros HO HB (i0 & k0 & HL) HM. unfold find_ext_bits.
  destruct (@ext_scan better (bget keys bits) (bval keys bits) HO N 0 lim 0) as (c & p & E & C & B & A).
  { intros i Hi. apply bget_ok with N; auto. lia. }
  rewrite for_up_ext with (g := fun i r => do o <- bget keys bits i;
      match o with Some k => if better k (fst r) then Ok (k, i) else Ok r | None => Ok r end).
  2:{ intros i s Hi. unfold bget. destruct (lget bits i) as [b| |]; cbn [bind]; auto.
      destruct b; cbn [bind]; auto. destruct (aget keys i); auto. }
  rewrite E. cbn [bind snd]. exists p. split; auto.
  assert (HN : forall i k, live keys bits i k -> better k c = false).
  { intros i k Hl. apply A with i; [|now apply bval_live].
    destruct Hl as [Hb _]. destruct HB as (_ & Lb & _).
    assert (i < length bits)%nat by (apply nth_error_Some; congruence). lia. }
  destruct C as [[-> ->]|(Hr & Hv & Hc)].
  - right. split; auto. intros i k Hl. destruct (HM i k Hl) as [|Hb]; auto. rewrite (HN i k Hl) in Hb. discriminate.
  - left. exists c. splits; auto. now apply bval_live.
Qed.

Theorem findMinKeyPosB_ok t keys bits N : bits_ok keys bits N ->
  (forall i k, live keys bits i k -> kt_in t k /\ k < kt_max t) -> (exists i k, live keys bits i k) ->
  exists pos m, findMinKeyPosB t keys bits N = Ok pos /\ live keys bits pos m /\
    (forall i k, live keys bits i k -> m <= k).
Proof.
  intros HB HM HX. destruct (@find_ext_bits_ok Z.ltb (kt_max t) keys bits N order_ltb HB HX) as (p & E & C).
  { intros i k Hl. right. specialize (HM i k Hl). lia. }
  destruct C as [(m & Hl & _ & HA)|[-> HA]].
  - exists p, m. splits; auto. intros i k Hk. specialize (HA i k Hk). lia.
  - destruct HX as (i & k & Hl). specialize (HA i k Hl). specialize (HM i k Hl). lia.
Qed.

Theorem findMaxKeyPosB_ok t keys bits N : bits_ok keys bits N ->
  (forall i k, live keys bits i k -> kt_in t k /\ kt_min t < k) -> (exists i k, live keys bits i k) ->
  exists pos m, findMaxKeyPosB t keys bits N = Ok pos /\ live keys bits pos m /\
    (forall i k, live keys bits i k -> k <= m).
Proof.
  intros HB HM HX. destruct (@find_ext_bits_ok Z.gtb (kt_min t) keys bits N order_gtb HB HX) as (p & E & C).
  { intros i k Hl. right. specialize (HM i k Hl). lia. }
  destruct C as [(m & Hl & _ & HA)|[-> HA]].
  - exists p, m. splits; auto. intros i k Hk. specialize (HA i k Hk). lia.
  - destruct HX as (i & k & Hl). specialize (HA i k Hl). specialize (HM i k Hl). lia.
Qed.

Lemma find_next_bits_ok better lim keys bits N key : order better -> bits_ok keys bits N ->
  (forall i k, live keys bits i k -> k <> lim -> better k lim = true) ->
  (forall i k, live keys bits i k -> k <> lim) ->
  (forall k, better k lim = true -> k <> lim) ->
  exists pos, find_next_bits better lim keys bits N key = Ok pos /\
    ((exists m, live keys bits pos m /\ better key m = true /\
        forall i k, live keys bits i k -> better key k = true -> better k m = false)
     \/ pos = N /\ forall i k, live keys bits i k -> better key k = false).
Proof.
  intros HO HB HM HX HL. unfold find_next_bits.
  set (val := fun i => match bval keys bits i with Some k => if better key k then Some k else None | None => None end).
  destruct (@ext_scan better (fun i => do o <- bget keys bits i;
     match o with Some k => if better key k then Ok (Some k) else Ok None | None => Ok None end) val HO N 0 lim 0)
    as (c & p & E & C & B & A).
  { intros i Hi. rewrite bget_ok with (N := N) by (auto; lia). unfold val. cbn [bind].
    destruct (bval keys bits i) as [k|]; [destruct (better key k)|]; reflexivity. }
  rewrite for_up_ext with (g := fun i r => do o <- (do o <- bget keys bits i;
     match o with Some k => if better key k then Ok (Some k) else Ok None | None => Ok None end);
      match o with Some k => if better k (fst r) then Ok (k, i) else Ok r | None => Ok r end).
  2:{ intros i s Hi. unfold bget. destruct (lget bits i) as [b| |]; cbn [bind]; auto.
      destruct b; cbn [bind]; auto. destruct (aget keys i) as [k| |]; cbn [bind]; auto.
      destruct (better key k); cbn [bind]; [|now rewrite andb_false_r]. now rewrite andb_true_r. }
  rewrite E. cbn [bind fst snd].
  assert (HN : forall i k, live keys bits i k -> better key k = true -> better k c = false).
  { intros i k Hl Hk. apply A with i.
    - destruct Hl as [Hb _]. destruct HB as (_ & Lb & _).
      assert (i < length bits)%nat by (apply nth_error_Some; congruence). lia.
    - apply bval_live in Hl. unfold val. now rewrite Hl, Hk. }
  destruct C as [[-> ->]|(Hr & Hv & Hc)].
  - rewrite Z.eqb_refl. exists N. split; auto. right. split; auto. intros i k Hl.
    destruct (better key k) eqn:EK; auto. rewrite <- (HN i k Hl EK). symmetry. apply HM with i; auto.
    apply HX with i; auto.
  - destruct (Z.eqb_spec c lim) as [EQ|NE]; [apply HL in Hc; congruence|].
    exists p. split; auto. left. exists c. unfold val in Hv.
    destruct (bval keys bits p) as [k|] eqn:EV; [|discriminate]. destruct (better key k) eqn:EK; [|discriminate].
    injection Hv as <-. splits; auto. now apply bval_live.
Qed.

Theorem findMinKeyPosGreaterThan_ok t keys bits N key : bits_ok keys bits N ->
  (forall i k, live keys bits i k -> kt_in t k /\ k < kt_max t) ->
  exists pos, findMinKeyPosGreaterThan t keys bits N key = Ok pos /\
    ((exists m, live keys bits pos m /\ key < m /\ forall i k, live keys bits i k -> key < k -> m <= k)
     \/ pos = N /\ forall i k, live keys bits i k -> k <= key).
Proof.
  intros HB HM. destruct (@find_next_bits_ok Z.ltb (kt_max t) keys bits N key order_ltb HB) as (p & E & C).
  1,2: intros i k Hl; specialize (HM i k Hl); lia.
  { intros; lia. }
  exists p. split; auto. destruct C as [(m & Hl & Hk & HA)|[-> HA]].
  - left. exists m. splits; auto; [lia|]. intros i k Hi Hk'. specialize (HA i k Hi). lia.
  - right. split; auto. intros i k Hi. specialize (HA i k Hi). lia.
Qed.

Theorem findMaxKeyPosSmallerThan_ok t keys bits N key : bits_ok keys bits N ->
  (forall i k, live keys bits i k -> kt_in t k /\ kt_min t < k) ->
  exists pos, findMaxKeyPosSmallerThan t keys bits N key = Ok pos /\
    ((exists m, live keys bits pos m /\ m < key /\ forall i k, live keys bits i k -> k < key -> k <= m)
     \/ pos = N /\ forall i k, live keys bits i k -> key <= k).
Proof.
  intros HB HM. destruct (@find_next_bits_ok Z.gtb (kt_min t) keys bits N key order_gtb HB) as (p & E & C).
  1,2: intros i k Hl; specialize (HM i k Hl); lia.
  { intros; lia. }
  exists p. split; auto. destruct C as [(m & Hl & Hk & HA)|[-> HA]].
  - left. exists m. splits; auto; [lia|]. intros i k Hi Hk'. specialize (HA i k Hi). lia.
  - right. split; auto. intros i k Hi. specialize (HA i k Hi). lia.
Qed.
