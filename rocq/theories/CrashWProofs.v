(** Prefixes of the stores of the wBPTree leaf operations. *)
From Verif Require Import Base BitmapModel BitmapProofs SearchModel FLeafProofs WbModel WbSpec WbProofs WbMain WbLeaf CrashSModel CrashWModel CrashWSpec.
Open Scope nat_scope.

Lemma csets {A} (s : arr A) i j : i < length s -> j < length s ->
  exists x s', cget s j = Ok x /\ cset s i x = Ok s' /\ length s' = length s /\ forall m, aget s' m = if m =? i then aget s j else aget s m.
Proof.
  intros Hi Hj. destruct (nth_error s j) as [x|] eqn:E; [|apply nth_error_None in E; lia]. exists x.
  destruct (@lset_some _ s i x Hi) as (s' & Es). exists s'. unfold cget, cset. rewrite E, Es. splits; auto.
  - now rewrite (lset_length Es).
  - intros m. unfold aget. rewrite (lset_nth m Es). destruct (m =? i); [now rewrite E|reflexivity].
Qed.

Section W.
Variables (V : Type) (M : nat).
Implicit Types l : wleaf V.
Notation X := (@w_exec V M).

Lemma w_exec_app p q : forall l, X l (p ++ q) = do a <- X l p; X a q.
Proof.
  induction p as [|s p IH]; intros l; cbn [app w_exec bind]; [reflexivity|].
  destruct (w_step M l s) as [a| |]; cbn [bind]; auto.
Qed.

Lemma up_length : forall m hi, length (up_stores V m hi) = m.
Proof. induction m as [|m IH]; intros hi; cbn [up_stores length]; auto. Qed.
Lemma down_length : forall m hi, length (down_stores V m hi) = m.
Proof. induction m as [|m IH]; intros hi; cbn [down_stores length]; auto. Qed.

Lemma up_prefix : forall m hi l q, m <= hi -> hi + 1 < length (ws l) -> exists s,
  X l (firstn q (up_stores V m hi)) = Ok (WLeaf s (wb l) (wk l) (wv l)) /\ length s = length (ws l) /\
  forall i, aget s i = if (hi + 2 - Nat.min q m <=? i) && (i <=? hi + 1) then aget (ws l) (i - 1) else aget (ws l) i.
Proof.
  induction m as [|m IH]; intros hi l q Hm HL.
  - cbn [up_stores]. rewrite firstn_nil. exists (ws l). splits; auto; [now destruct l|].
    intros i. rewrite Nat.min_0_r. destruct (Nat.leb_spec (hi + 2 - 0) i); cbn [andb]; auto. destruct (Nat.leb_spec i (hi + 1)); [lia|auto].
  - destruct q as [|q].
    + exists (ws l). splits; auto; [now destruct l|]. intros i. cbn [Nat.min]. destruct (Nat.leb_spec (hi + 2 - 0) i); cbn [andb]; auto. destruct (Nat.leb_spec i (hi + 1)); [lia|auto].
    + cbn [up_stores firstn w_exec w_step]. destruct (@csets _ (ws l) (hi + 1) hi) as (x & s' & -> & E & L & G); [lia|lia|]. cbn [bind]. rewrite E. cbn [bind].
      destruct (IH (pred hi) (WLeaf s' (wb l) (wk l) (wv l)) q) as (s & Es & Ls & Gs); cbn [ws]; [lia|lia|]. cbn [ws wb wk wv] in *.
      exists s. splits; auto; [lia|]. intros i. rewrite Gs, !G. cbn [Nat.min].
      destruct (Nat.leb_spec (pred hi + 2 - Nat.min q m) i), (Nat.leb_spec i (pred hi + 1)), (Nat.leb_spec (hi + 2 - S (Nat.min q m)) i), (Nat.leb_spec i (hi + 1));
        cbn [andb]; destruct (Nat.eqb_spec (i - 1) (hi + 1)), (Nat.eqb_spec i (hi + 1)); try lia; auto; f_equal; lia.
Qed.
Lemma down_prefix : forall m lo l q, lo + m < length (ws l) -> exists s,
  X l (firstn q (down_stores V m lo)) = Ok (WLeaf s (wb l) (wk l) (wv l)) /\ length s = length (ws l) /\
  forall i, aget s i = if (lo <=? i) && (i <? lo + Nat.min q m) then aget (ws l) (i + 1) else aget (ws l) i.
Proof.
  induction m as [|m IH]; intros lo l q HL.
  - cbn [down_stores]. rewrite firstn_nil. exists (ws l). splits; auto; [now destruct l|].
    intros i. rewrite Nat.min_0_r. destruct (Nat.leb_spec lo i); cbn [andb]; auto. destruct (Nat.ltb_spec i (lo + 0)); [lia|auto].
  - destruct q as [|q].
    + exists (ws l). splits; auto; [now destruct l|]. intros i. cbn [Nat.min]. destruct (Nat.leb_spec lo i); cbn [andb]; auto. destruct (Nat.ltb_spec i (lo + 0)); [lia|auto].
    + cbn [down_stores firstn w_exec w_step]. destruct (@csets _ (ws l) lo (lo + 1)) as (x & s' & -> & E & L & G); [lia|lia|]. cbn [bind]. rewrite E. cbn [bind].
      destruct (IH (S lo) (WLeaf s' (wb l) (wk l) (wv l)) q) as (s & Es & Ls & Gs); cbn [ws]; [lia|]. cbn [ws wb wk wv] in *.
      exists s. splits; auto; [lia|]. intros i. rewrite Gs, !G. cbn [Nat.min].
      destruct (Nat.leb_spec (S lo) i), (Nat.ltb_spec i (S lo + Nat.min q m)), (Nat.leb_spec lo i), (Nat.ltb_spec i (lo + S (Nat.min q m)));
        cbn [andb]; destruct (Nat.eqb_spec (i + 1) lo), (Nat.eqb_spec i lo); try lia; auto; f_equal; lia.
Qed.
Lemma up_exec : forall m hi l, X l (up_stores V m hi) =
  do s <- for_down hi m (fun j s => do x <- cget s j; cset s (j + 1) x) (ws l); Ok (WLeaf s (wb l) (wk l) (wv l)).
Proof.
  induction m as [|m IH]; intros hi l; cbn [up_stores w_exec w_step for_down bind]; [now destruct l|].
  destruct (cget (ws l) hi) as [x| |]; cbn [bind]; try reflexivity. destruct (cset (ws l) (hi + 1) x) as [s| |]; cbn [bind]; try reflexivity. exact (IH (pred hi) (WLeaf s (wb l) (wk l) (wv l))).
Qed.
Lemma down_exec : forall m lo l, X l (down_stores V m lo) =
  do s <- for_up lo m (fun i s => do x <- cget s (i + 1); cset s i x) (ws l); Ok (WLeaf s (wb l) (wk l) (wv l)).
Proof.
  induction m as [|m IH]; intros lo l; cbn [down_stores w_exec w_step for_up bind]; [now destruct l|].
  destruct (cget (ws l) (lo + 1)) as [x| |]; cbn [bind]; try reflexivity. destruct (cset (ws l) lo x) as [s| |]; cbn [bind]; try reflexivity. exact (IH (S lo) (WLeaf s (wb l) (wk l) (wv l))).
Qed.

(** * Facts about the listing *)
Lemma good_stored_listed l k v : good_leaf M l -> stored M l k v <-> listed l k v.
Proof.
  intros (_ & (n & E0 & Hn & HI & HP & _) & HF). split.
  - intros (p & U & Ek & Ev). destruct (HP p U) as (i & Hi & Ei). exists n, i, p. auto.
  - intros (n' & i & p & E0' & Hi & Ei & Ek & Ev). assert (n' = n) by congruence. subst n'. destruct (HI i Hi) as (p' & Ei' & U).
    assert (p' = p) by congruence. subst p'. exists p. auto.
Qed.
End W.

Section Insert.
Variables (V : Type) (M : nat).
Implicit Types l : wleaf V.
Notation X := (@w_exec V M).

Section State.
Variables (hyb : bool) (l : wleaf V) (n pos u : nat) (key : Z) (val : V) (p : list (wstore V)).
Hypothesis (SZ : sized M l) (E0 : aget (ws l) 0 = Ok n) (Hn : n < M) (Hp : 1 <= pos <= n + 1).
Hypothesis (EU : getFreeZero (wb l) = Ok u) (Hu : u < M).
Hypothesis (EP : w_insert_stores hyb l pos key val = Ok p).

Lemma ins_stores : p = WKey u key :: WVal u val :: up_stores V (n + 1 - pos) n ++ WSlot pos u :: (if hyb then [WSlot 0 (S n); WBit u] else [WBit u; WSlot 0 (S n)]).
Proof. unfold w_insert_stores in EP. rewrite EU, E0 in EP. cbn [bind] in EP. now injection EP. Qed.
Lemma ins_length : length p = n + 1 - pos + 5.
Proof. rewrite ins_stores. cbn [length]. rewrite app_length, up_length. cbn [length]. destruct hyb; cbn [length]; lia. Qed.

Lemma ins_state q : exists l', X l (firstn q p) = Ok l' /\
  (forall x, x <> u -> aget (wk l') x = aget (wk l) x /\ aget (wv l') x = aget (wv l) x) /\
  (2 <= q -> aget (wk l') u = Ok key /\ aget (wv l') u = Ok val) /\
  (forall x, bit (wb l') x = if (x =? u) && (n + 1 - pos + (if hyb then 5 else 4) <=? q) then true else bit (wb l) x) /\
  aget (ws l') 0 = Ok (if n + 1 - pos + (if hyb then 4 else 5) <=? q then S n else n) /\
  (q <= n + 1 - pos + 2 -> forall i, 1 <= i <= n -> aget (ws l') i = if n + 4 - q <=? i then aget (ws l) (i - 1) else aget (ws l) i) /\
  (n + 1 - pos + 2 < q -> forall i, 1 <= i <= n + 1 -> aget (ws l') i = if i =? pos then Ok u else if pos <? i then aget (ws l) (i - 1) else aget (ws l) i).
Proof.
  rewrite ins_stores. destruct SZ as (LS & LK & LV & HB). set (m := n + 1 - pos). assert (Hm : m + pos = n + 1) by (unfold m; lia). clearbody m.
  destruct q as [|[|q]]; cbn [firstn w_exec w_step bind].
  - exists l. split; [reflexivity|]. splits; auto; try lia.
    + intros x. destruct (Nat.leb_spec (m + (if hyb then 5 else 4)) 0); [destruct hyb; lia|]. now rewrite andb_false_r.
    + destruct (Nat.leb_spec (m + (if hyb then 4 else 5)) 0); [destruct hyb; lia|auto].
    + intros _ i Hi. destruct (Nat.leb_spec (n + 4 - 0) i); [lia|auto].
  - destruct (@aset_ok _ (wk l) u key) as (ks & EK); [lia|]. rewrite EK. cbn [bind]. eexists. split; [reflexivity|]. cbn [ws wb wk wv]. splits; auto; try lia.
    + intros x Hx. rewrite (aget_aset x EK). destruct (Nat.eqb_spec x u); [contradiction|auto].
    + intros x. destruct (Nat.leb_spec (m + (if hyb then 5 else 4)) 1); [destruct hyb; lia|]. now rewrite andb_false_r.
    + destruct (Nat.leb_spec (m + (if hyb then 4 else 5)) 1); [destruct hyb; lia|auto].
    + intros _ i Hi. destruct (Nat.leb_spec (n + 4 - 1) i); [lia|auto].
  - destruct (@aset_ok _ (wk l) u key) as (ks & EK); [lia|]. rewrite EK. cbn [bind ws wb wk wv].
    destruct (@aset_ok _ (wv l) u val) as (vs & EV); [lia|]. rewrite EV. cbn [bind ws wb wk wv].
    rewrite firstn_app, up_length, w_exec_app.
    destruct (@up_prefix V M m n (WLeaf (ws l) (wb l) ks vs) q) as (s & Es & Ls & Gs); cbn [ws]; [lia|lia|]. cbn [ws wb wk wv] in *. rewrite Es. cbn [bind]. clear Es.
    assert (KV : forall x, x <> u -> aget ks x = aget (wk l) x /\ aget vs x = aget (wv l) x).
    { intros x Hx. rewrite (aget_aset x EK), (aget_aset x EV). destruct (Nat.eqb_spec x u); [contradiction|auto]. }
    assert (KU : aget ks u = Ok key /\ aget vs u = Ok val) by (rewrite (aget_aset u EK), (aget_aset u EV), Nat.eqb_refl; auto).
    assert (G0 : aget s 0 = Ok n). { rewrite Gs. destruct (Nat.leb_spec (n + 2 - Nat.min q m) 0); [lia|]. cbn [andb]. exact E0. }
    destruct (Nat.le_gt_cases q m) as [Hq|Hq].
    { replace (q - m) with 0 by lia. cbn [firstn w_exec]. eexists. split; [reflexivity|]. cbn [ws wb wk wv]. splits; auto; try lia.
      - intros x. destruct (Nat.leb_spec (m + (if hyb then 5 else 4)) (S (S q))); [destruct hyb; lia|]. now rewrite andb_false_r.
      - rewrite G0. destruct (Nat.leb_spec (m + (if hyb then 4 else 5)) (S (S q))); [destruct hyb; lia|auto].
      - intros _ i Hi. rewrite Gs. rewrite Nat.min_l by lia. replace (n + 4 - S (S q)) with (n + 2 - q) by lia.
        destruct (Nat.leb_spec i (n + 1)); [|lia]. now rewrite andb_true_r. }
    rewrite Nat.min_r in Gs by lia.
    destruct (@aset_ok _ s pos u) as (s1 & E1); [lia|].
    assert (G1 : forall i, 1 <= i <= n + 1 -> aget s1 i = if i =? pos then Ok u else if pos <? i then aget (ws l) (i - 1) else aget (ws l) i).
    { intros i Hi. rewrite (aget_aset i E1), Gs. destruct (Nat.eqb_spec i pos); auto.
      destruct (Nat.leb_spec (n + 2 - m) i), (Nat.leb_spec i (n + 1)), (Nat.ltb_spec pos i); cbn [andb]; auto; lia. }
    assert (G10 : aget s1 0 = Ok n). { rewrite (aget_aset 0 E1). destruct (Nat.eqb_spec 0 pos); [lia|exact G0]. }
    destruct (@bm_set_ok M (wb l) u true HB Hu) as (b & EB & _ & Gb).
    destruct (@aset_ok _ s1 0 (S n)) as (s2 & E2); [rewrite (aset_length E1); lia|].
    assert (G2 : forall i, 1 <= i <= n + 1 -> aget s2 i = if i =? pos then Ok u else if pos <? i then aget (ws l) (i - 1) else aget (ws l) i).
    { intros i Hi. rewrite (aget_aset i E2), G1 by lia. destruct (Nat.eqb_spec i 0); [lia|auto]. }
    assert (G20 : aget s2 0 = Ok (S n)) by (rewrite (aget_aset 0 E2); reflexivity).
    destruct (q - m) as [|[|[|d]]] eqn:D; [lia| | |]; destruct hyb; cbn [firstn w_exec w_step bind ws wb wk wv]; rewrite E1; cbn [bind firstn w_exec w_step ws wb wk wv];
      rewrite ?EB, ?E2; cbn [bind ws wb wk wv]; rewrite ?EB, ?E2; cbn [bind ws wb wk wv]; rewrite ?firstn_nil; cbn [w_exec]; eexists; (split; [reflexivity|]); cbn [ws wb wk wv];
      splits; auto; try lia; try (intros x); rewrite ?Gb, ?G10, ?G20;
      repeat match goal with
      | |- context [?a <=? ?b] => destruct (Nat.leb_spec a b); [try lia|try lia]
      | |- context [(?a =? ?b) && _] => destruct (Nat.eqb_spec a b); cbn [andb]
      end; auto; try lia; try (rewrite andb_false_r; auto).
Qed.
End State.

Lemma good_free l n : good_leaf M l -> aget (ws l) 0 = Ok n -> n < M ->
  exists u, getFreeZero (wb l) = Ok u /\ u < M /\ ~ in_use M l u.
Proof.
  intros G E0 Hn. destruct (good_wrep G) as (es & (sl & R & Es & EL & HS & HO)). rewrite Es in E0. injection E0 as <-.
  pose proof (store_len HS) as LS. destruct es as [|e es'] eqn:EE.
  - destruct sl; [|discriminate]. destruct HS as (HB & _ & _ & _ & HU & _).
    destruct (getFreeZero_ok HB) as (u & Eu & Hle & Hall & Hu). exists u.
    assert (Lu : u < M). { destruct (Nat.lt_ge_cases u M); auto. assert (X0 : bit (wb l) 0 = true) by (apply Hall; cbn [length] in Hn; lia). apply HU in X0. destruct X0. }
    splits; auto. intros (_ & X0). apply HU in X0. destruct X0.
  - destruct e as (k0, v0). destruct (@store_alloc V M _ _ _ _ _ k0 v0 HS) as (u & _ & _ & _ & Eu & _ & _ & _ & NI & Lu & _); [lia|].
    exists u. splits; auto. intros (_ & X0). destruct HS as (_ & _ & _ & _ & HU & _). now apply HU in X0.
Qed.

Lemma w_insert_crash hyb l n pos key val : good_leaf M l -> w_count l = Ok n -> n < M -> 1 <= pos <= n + 1 -> (forall v, ~ stored M l key v) ->
  exists p, w_insert_stores hyb l pos key val = Ok p /\ length p = n + 6 - pos /\ forall q, exists l', X l (firstn q p) = Ok l' /\
    (forall k v, stored M l k v -> stored M l' k v) /\
    (forall k v, listed l' k v -> stored M l k v \/ (k = key /\ v = val)) /\
    ((forall k v, stored M l k v -> listed l' k v) <-> q <= 3 \/ pos = n + 1 \/ length p - (if hyb then 1 else 0) <= q) /\
    (forall i, 1 <= i < pos -> aget (ws l') i = aget (ws l) i) /\
    (length p <= q -> w_insert_at M l pos key val = Ok l').
Proof.
  intros G E0 Hn Hp NK. unfold w_count in E0. destruct (good_free G E0 Hn) as (u & EU & Hu & NU).
  pose proof G as (SZ & (n0 & E0' & _ & HI & HP & HJ & HO) & HF). assert (n0 = n) by congruence. subst n0. clear E0'.
  assert (EP : exists p, w_insert_stores hyb l pos key val = Ok p) by (unfold w_insert_stores; rewrite EU, E0; cbn [bind]; eauto).
  destruct EP as (p & EP). exists p. split; [exact EP|]. assert (LP : length p = n + 1 - pos + 5) by (eapply ins_length; eauto). split; [lia|]. intros q.
  destruct (ins_state SZ E0 Hn Hp EU Hu EP q) as (l' & E & KV & KU & HB & C0 & SA & SB). exists l'. split; [exact E|].
  assert (ENT : forall i, 1 <= i <= n -> exists x k v, aget (ws l) i = Ok x /\ in_use M l x /\ aget (wk l) x = Ok k /\ aget (wv l) x = Ok v /\ x <> u).
  { intros i Hi. destruct (HI i Hi) as (x & Ex & Ux). destruct (HF x Ux) as (k & v & Ek & Ev). exists x, k, v. splits; auto. intros ->. contradiction. }
  (* every listed slot of l' is an old one or the new entry *)
  assert (SRC : forall n' i x, aget (ws l') 0 = Ok n' -> 1 <= i <= n' -> aget (ws l') i = Ok x ->
    (exists j, 1 <= j <= n /\ aget (ws l) j = Ok x /\ (q <= 3 -> j = i) /\ (pos <= n -> 3 < q -> n' = n -> j < n)) \/ (x = u /\ n + 1 - pos + 2 < q)).
  { intros n' i x C Hi Ei. rewrite C0 in C. injection C as C. destruct (Nat.le_gt_cases q (n + 1 - pos + 2)) as [Hq|Hq].
    - assert (N' : n' = n). { destruct (Nat.leb_spec (n + 1 - pos + (if hyb then 4 else 5)) q); [destruct hyb; lia|auto]. } subst n'. rewrite N' in *.
      left. rewrite (SA Hq i) in Ei by lia. destruct (Nat.leb_spec (n + 4 - q) i).
      + exists (i - 1). splits; auto; lia.
      + exists i. splits; auto; lia.
    - assert (N' : n' <= n + 1). { destruct (Nat.leb_spec (n + 1 - pos + (if hyb then 4 else 5)) q); lia. } clear C.
      rewrite (SB Hq i) in Ei by lia. destruct (Nat.eqb_spec i pos); [right; split; [congruence|auto]|]. left. destruct (Nat.ltb_spec pos i).
      + exists (i - 1). splits; auto; lia.
      + exists i. splits; auto; lia. }
  splits.
  - intros k v (x & (Lx & Bx) & Ek & Ev). assert (x <> u) by (intros ->; apply NU; split; auto). destruct (KV x H) as (Kx & Vx). exists x.
    splits; try congruence. split; [auto|]. rewrite HB. destruct ((x =? u) && _); auto.
  - intros k v (n' & i & x & En & Hi & Ei & Ek & Ev). destruct (SRC n' i x En Hi Ei) as [(j & Hj & Ej & _)|(-> & Hq)].
    + left. destruct (ENT j Hj) as (x' & k' & v' & Ex & Ux & Ek' & Ev' & NE). assert (x' = x) by congruence. subst x'.
      destruct (KV x NE) as (Kx & Vx). exists x. splits; congruence.
    + right. destruct KU as (Ku & Vu); [lia|]. split; congruence.
  - rewrite LP. split.
    + intros ALL. destruct (Nat.le_gt_cases q 3); [auto|]. destruct (Nat.eq_dec pos (n + 1)); [auto|].
      destruct (Nat.le_gt_cases (n + 1 - pos + 5 - (if hyb then 1 else 0)) q) as [|Hq]; [auto|exfalso].
      destruct (ENT n) as (x & k & v & Ex & Ux & Ek & Ev & NE); [lia|].
      destruct (ALL k v) as (n' & i & y & En & Hi & Ei & Ek' & Ev'); [exists x; auto|].
      assert (N' : n' = n). { rewrite C0 in En. injection En as <-. destruct (Nat.leb_spec (n + 1 - pos + (if hyb then 4 else 5)) q); [destruct hyb; lia|auto]. }
      destruct (SRC n' i y En Hi Ei) as [(j & Hj & Ej & _ & Hl)|(-> & _)].
      * specialize (Hl ltac:(lia) ltac:(lia) N'). destruct (ENT j Hj) as (y' & k' & v' & Ey & Uy & Eky & Evy & NEy). assert (y' = y) by congruence. subst y'.
        destruct (KV y NEy) as (Ky & _). assert (k' = k) by congruence. subst k'. pose proof (HO j n y x k k ltac:(lia) Hl ltac:(lia) Ej Ex Eky Ek). lia.
      * destruct KU as (Ku & _); [lia|]. assert (k = key) by congruence. subst k. apply (NK v). exists x. auto.
    + intros HC k v (x & Ux & Ek & Ev). destruct (HP x Ux) as (i & Hi & Ei). assert (NE : x <> u) by (intros ->; contradiction).
      destruct (KV x NE) as (Kx & Vx).
      destruct (Nat.le_gt_cases q (n + 1 - pos + 2)) as [Hq|Hq].
      * assert (C1 : aget (ws l') 0 = Ok n). { rewrite C0. destruct (Nat.leb_spec (n + 1 - pos + (if hyb then 4 else 5)) q); [destruct hyb; lia|auto]. }
        exists n, i, x. splits; try congruence; try lia. rewrite (SA Hq i Hi). destruct (Nat.leb_spec (n + 4 - q) i); [|auto].
        destruct hyb; lia.
      * destruct (Nat.lt_ge_cases i pos) as [Hi'|Hi'].
        -- eexists _, i, x. rewrite C0. splits; try congruence; try reflexivity; try lia.
           ++ destruct (Nat.leb_spec (n + 1 - pos + (if hyb then 4 else 5)) q); lia.
           ++ rewrite (SB Hq i) by lia. destruct (Nat.eqb_spec i pos); [lia|]. destruct (Nat.ltb_spec pos i); [lia|auto].
        -- assert (C1 : aget (ws l') 0 = Ok (S n)). { rewrite C0. destruct (Nat.leb_spec (n + 1 - pos + (if hyb then 4 else 5)) q); [auto|destruct hyb; lia]. }
           exists (S n), (S i), x. splits; try congruence; try lia. rewrite (SB Hq (S i)) by lia. destruct (Nat.eqb_spec (S i) pos); [lia|].
           destruct (Nat.ltb_spec pos (S i)); [|lia]. cbn [Nat.sub]. now rewrite Nat.sub_0_r.
  - intros i Hi. destruct (Nat.le_gt_cases q (n + 1 - pos + 2)) as [Hq|Hq].
    + rewrite (SA Hq i) by lia. destruct (Nat.leb_spec (n + 4 - q) i); [lia|auto].
    + rewrite (SB Hq i) by lia. destruct (Nat.eqb_spec i pos); [lia|]. destruct (Nat.ltb_spec pos i); [lia|auto].
  - intros HL. rewrite firstn_all2 in E by exact HL. rewrite (ins_stores E0 EU EP) in E. unfold w_insert_at. rewrite EU, E0. cbn [bind].
    cbn [w_exec w_step bind] in E. destruct (aset (wk l) u key) as [ks| |]; try discriminate. cbn [bind ws wb wk wv] in *.
    destruct (aset (wv l) u val) as [vs| |]; try discriminate. cbn [bind ws wb wk wv] in *.
    rewrite w_exec_app, up_exec in E. cbn [ws wb wk wv] in E.
    destruct (for_down n (n + 1 - pos) _ (ws l)) as [s1| |] eqn:EF; try discriminate. cbn [bind] in E |- *. cbn [w_exec w_step ws wb wk wv] in E.
    destruct (aset s1 pos u) as [s2| |] eqn:E2; try discriminate. cbn [bind] in E |- *.
    assert (C2 : aget s2 0 = Ok n).
    { destruct (@up_prefix V M (n + 1 - pos) n l (n + 1 - pos)) as (s & Es & _ & Gs); [lia|destruct SZ; lia|].
      rewrite firstn_all2, up_exec, EF in Es by (rewrite up_length; lia). cbn [bind] in Es. injection Es as ->.
      rewrite (aget_aset 0 E2). destruct (Nat.eqb_spec 0 pos); [lia|]. rewrite Gs. destruct (Nat.leb_spec (n + 2 - Nat.min (n + 1 - pos) (n + 1 - pos)) 0); [lia|]. exact E0. }
    destruct (proj2 (proj2 (proj2 SZ))) as (HB1 & HB2). destruct (@bm_set_ok M (wb l) u true (conj HB1 HB2) Hu) as (b & EB & _). rewrite EB. cbn [bind]. rewrite C2.
    destruct hyb; cbn [w_exec w_step ws wb wk wv] in E; rewrite ?EB in E; cbn [bind ws wb wk wv] in *;
      destruct (aset s2 0 (S n)) as [s3| |]; try discriminate; cbn [bind ws wb wk wv] in *; rewrite ?EB in E; exact E.
Qed.
End Insert.

Section Erase.
Variables (V : Type) (M : nat).
Implicit Types l : wleaf V.
Notation X := (@w_exec V M).

Lemma w_erase_crash l n pos x key : good_leaf M l -> w_count l = Ok n -> n < M -> 1 <= pos <= n -> aget (ws l) pos = Ok x -> aget (wk l) x = Ok key ->
  exists p, w_erase_stores l pos = Ok p /\ length p = n + 3 - pos /\ forall q, exists l', X l (firstn q p) = Ok l' /\
    (forall k v, stored M l k v -> k <> key -> listed l' k v) /\
    (q <= n + 1 - pos -> forall k v, listed l' k v -> stored M l k v) /\
    (forall i, 1 <= i < pos -> aget (ws l') i = aget (ws l) i) /\
    (length p <= q -> w_erase_at M l pos = Ok l').
Proof.
  intros G E0 Hn Hp Ex Ekx. unfold w_count in E0. pose proof G as ((LS & LK & LV & HB) & (n0 & E0' & _ & HI & HP & HJ & HO) & HF). assert (n0 = n) by congruence. subst n0. clear E0'.
  unfold w_erase_stores. rewrite Ex, E0. cbn [bind]. eexists. split; [reflexivity|]. cbn [length]. rewrite app_length, down_length. cbn [length].
  split; [lia|]. intros q.
  destruct (HI pos) as (x' & Ex' & (Lx & _)); [lia|]. assert (x' = x) by congruence. subst x'.
  destruct (@bm_reset_ok M (wb l) x HB Lx) as (b & EB & _ & Gb).
  (* the state *)
  assert (ST : exists l', X l (firstn q (WClear x :: down_stores V (n + 1 - pos) pos ++ [WSlot 0 (n - 1)])) = Ok l' /\
    wk l' = wk l /\ wv l' = wv l /\
    aget (ws l') 0 = Ok (if n + 2 - pos <? q then n - 1 else n) /\
    forall i, 1 <= i -> aget (ws l') i = if (pos <=? i) && (i <? pos + Nat.min (q - 1) (n + 1 - pos)) then aget (ws l) (i + 1) else aget (ws l) i).
  { destruct q as [|q].
    - exists l. splits; auto. intros i Hi. cbn [Nat.sub Nat.min]. destruct (Nat.leb_spec pos i); cbn [andb]; auto. destruct (Nat.ltb_spec i (pos + 0)); [lia|auto].
    - cbn [firstn w_exec w_step]. rewrite EB. cbn [bind]. rewrite firstn_app, down_length, w_exec_app.
      destruct (@down_prefix V M (n + 1 - pos) pos (WLeaf (ws l) b (wk l) (wv l)) q) as (s & Es & Ls & Gs); cbn [ws]; [lia|]. cbn [ws wb wk wv] in *. rewrite Es. cbn [bind].
      assert (G0 : aget s 0 = Ok n). { rewrite Gs. destruct (Nat.leb_spec pos 0); [lia|]. cbn [andb]. exact E0. }
      replace (S q - 1) with q by lia.
      destruct (q - (n + 1 - pos)) as [|d] eqn:D.
      + cbn [firstn w_exec]. eexists. split; [reflexivity|]. cbn [ws wb wk wv]. splits; auto. rewrite G0. destruct (Nat.ltb_spec (n + 2 - pos) (S q)); [lia|auto].
      + destruct (@aset_ok _ s 0 (n - 1)) as (s2 & E2); [lia|]. cbn [firstn w_exec w_step ws wb wk wv]. rewrite E2. cbn [bind]. rewrite firstn_nil. cbn [w_exec].
        eexists. split; [reflexivity|]. cbn [ws wb wk wv]. splits; auto.
        * rewrite (aget_aset 0 E2). cbn [Nat.eqb]. destruct (Nat.ltb_spec (n + 2 - pos) (S q)); [auto|lia].
        * intros i Hi. rewrite (aget_aset i E2). destruct (Nat.eqb_spec i 0); [lia|]. apply Gs. }
  destruct ST as (l' & E & WK & WV & C0 & GS). exists l'. split; [exact E|]. splits.
  - intros k v (y & Uy & Ek & Ev) NE. destruct (HP y Uy) as (i & Hi & Ei). assert (i <> pos) by (intros ->; congruence).
    destruct (Nat.lt_ge_cases i pos) as [Hi'|Hi'].
    + exists (if n + 2 - pos <? q then n - 1 else n), i, y. rewrite WK, WV. splits; auto; try lia.
      * destruct (Nat.ltb_spec (n + 2 - pos) q); lia.
      * rewrite GS by lia. destruct (Nat.leb_spec pos i); [lia|auto].
    + destruct (Nat.lt_ge_cases (i - 1) (pos + Nat.min (q - 1) (n + 1 - pos))) as [Hm|Hm].
      * exists (if n + 2 - pos <? q then n - 1 else n), (i - 1), y. rewrite WK, WV. splits; auto; try lia.
        -- destruct (Nat.ltb_spec (n + 2 - pos) q); lia.
        -- rewrite GS by lia. destruct (Nat.leb_spec pos (i - 1)); [|lia]. destruct (Nat.ltb_spec (i - 1) (pos + Nat.min (q - 1) (n + 1 - pos))); [|lia].
           cbn [andb]. now replace (i - 1 + 1) with i by lia.
      * exists (if n + 2 - pos <? q then n - 1 else n), i, y. rewrite WK, WV. splits; auto; try lia.
        -- destruct (Nat.ltb_spec (n + 2 - pos) q); lia.
        -- rewrite GS by lia. destruct (Nat.ltb_spec i (pos + Nat.min (q - 1) (n + 1 - pos))); [lia|]. now rewrite andb_false_r.
  - intros Hq k v (n' & i & y & En & Hi & Ei & Ek & Ev). rewrite C0 in En. destruct (Nat.ltb_spec (n + 2 - pos) q); [lia|]. injection En as <-.
    assert (SRC : exists j, 1 <= j <= n /\ aget (ws l) j = Ok y).
    { rewrite GS in Ei by lia. destruct (Nat.leb_spec pos i), (Nat.ltb_spec i (pos + Nat.min (q - 1) (n + 1 - pos))); cbn [andb] in Ei; [exists (i + 1)|exists i|exists i|exists i]; split; auto; lia. }
    destruct SRC as (j & Hj & Ej). destruct (HI j Hj) as (y' & Ey & Uy). assert (y' = y) by congruence. subst y'. exists y. rewrite <- WK, <- WV. auto.
  - intros i Hi. rewrite GS by lia. destruct (Nat.leb_spec pos i); [lia|auto].
  - intros HL. rewrite firstn_all2 in E by (cbn [length]; rewrite app_length, down_length; cbn [length]; lia).
    unfold w_erase_at. rewrite Ex, E0. cbn [bind]. cbn [w_exec w_step] in E. rewrite EB in *. cbn [bind] in *. rewrite w_exec_app, down_exec in E. cbn [ws wb wk wv] in E.
    destruct (for_up pos (n + 1 - pos) _ (ws l)) as [s1| |]; try discriminate. cbn [bind] in *. cbn [w_exec w_step ws wb wk wv] in E.
    destruct (aset s1 0 (n - 1)); try discriminate. exact E.
Qed.
End Erase.
