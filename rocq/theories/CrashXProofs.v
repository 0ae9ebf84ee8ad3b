(** Prefixes of the stores of the wBPTree leaf split. *)
From Verif Require Import Base MapSpec SortedList BitmapModel BitmapProofs SearchModel FLeafProofs BTreeMain WbModel WbSpec WbProofs WbMove WbMain WbLeaf
  CrashSModel CrashSSpec CrashWModel CrashWSpec CrashWProofs.
Open Scope nat_scope.

Section X.
Variables (V : Type) (M : nat).
Implicit Types (l : wleaf V) (st : sstate (wleaf V)).
Notation X := (@wx_exec V M).

Lemma wx_exec_app p q : forall st, X st (p ++ q) = do a <- X st p; X a q.
Proof.
  induction p as [|s p IH]; intros st; cbn [app wx_exec bind]; [reflexivity|].
  destruct (wx_step M st s) as [a| |]; cbn [bind]; auto.
Qed.
Lemma wx_prefix p : forall st st' n, X st p = Ok st' -> exists s, X st (firstn n p) = Ok s.
Proof.
  induction p as [|x p IH]; intros st st' n E; [rewrite firstn_nil; exists st; reflexivity|]. destruct n as [|n]; [exists st; reflexivity|].
  cbn [firstn wx_exec] in *. destruct (wx_step M st x) as [a| |]; try discriminate. cbn [bind] in *. eauto.
Qed.

(** Stores that leave slots, keys and values of the full leaf and the links alone. *)
Definition quiet (x : wxstore V) : Prop := match x with WSib _ | WNode (WClear _) => True | _ => False end.
Lemma quiet_exec p : Forall quiet p -> forall st st', X st p = Ok st' ->
  ws (snode st') = ws (snode st) /\ wk (snode st') = wk (snode st) /\ wv (snode st') = wv (snode st) /\ nnext st' = nnext st /\ snext st' = snext st.
Proof.
  induction 1 as [|x p Hx _ IH]; intros st st' E; cbn [wx_exec] in E; [injection E as <-; auto|].
  destruct (wx_step M st x) as [a| |] eqn:Ex; try discriminate. cbn [bind] in E. destruct (IH _ _ E) as (A & B & C & D & F).
  assert (Y : ws (snode a) = ws (snode st) /\ wk (snode a) = wk (snode st) /\ wv (snode a) = wv (snode st) /\ nnext a = nnext st /\ snext a = snext st).
  { destruct x as [[]|s| | |]; try contradiction; cbn [wx_step w_step] in Ex.
    - destruct (bm_reset M (wb (snode st)) i); try discriminate. injection Ex as <-. auto.
    - destruct (w_step M (ssib st) s); try discriminate. injection Ex as <-. auto. }
  destruct Y as (-> & -> & -> & -> & ->) in A, B, C, D, F. auto 6.
Qed.
Lemma copy_quiet l mid : forall n i c, wcopy_stores l n i mid = Ok c -> Forall quiet c.
Proof.
  induction n as [|n IH]; intros i c E; cbn [wcopy_stores] in E; [injection E as <-; constructor|].
  destruct (aget (ws l) (i + mid)) as [p| |]; try discriminate. cbn [bind] in E. destruct (aget (wk l) p) as [k| |]; try discriminate. cbn [bind] in E.
  destruct (aget (wv l) p) as [v| |]; try discriminate. cbn [bind] in E. destruct (wcopy_stores l n (S i) mid) eqn:Er; try discriminate. cbn [bind] in E. injection E as <-.
  repeat constructor. eauto.
Qed.
Lemma reset_quiet l : forall n i c, wreset_stores l n i = Ok c -> Forall quiet c.
Proof.
  induction n as [|n IH]; intros i c E; cbn [wreset_stores] in E; [injection E as <-; constructor|].
  destruct (aget (ws l) (i + 1)) as [p| |]; try discriminate. cbn [bind] in E. destruct (wreset_stores l n (S i)) eqn:Er; try discriminate. cbn [bind] in E. injection E as <-.
  repeat constructor. eauto.
Qed.

(** The loops of the split succeed exactly as the stores do. *)
Lemma copy_exec l ns mid : (forall i, 1 <= i -> aget ns i = aget (ws l) i) -> forall n i sib sib', 1 <= i ->
  for_up i n (fun i (s : wleaf V) =>
                 do s1 <- aset (ws s) i (i - 1);
                 do b <- bm_set M (wb s) (i - 1) true;
                 do p <- aget ns (i + mid);
                 do k <- aget (wk l) p;
                 do ks <- aset (wk s) (i - 1) k;
                 do v <- aget (wv l) p;
                 do vs <- aset (wv s) (i - 1) v;
                 Ok (WLeaf s1 b ks vs)) sib = Ok sib' ->
  exists c, wcopy_stores l n i mid = Ok c /\ forall a nn sn, X (SState a sib nn sn) c = Ok (SState a sib' nn sn).
Proof.
  intros HN. induction n as [|n IH]; intros i sib sib' Hi E; cbn [for_up wcopy_stores] in *; [injection E as <-; eexists; split; [reflexivity|]; reflexivity|].
  destruct (aset (ws sib) i (i - 1)) as [s1| |] eqn:E1; try discriminate. cbn [bind] in E.
  destruct (bm_set M (wb sib) (i - 1) true) as [b| |] eqn:E2; try discriminate. cbn [bind] in E.
  rewrite HN in E by lia. destruct (aget (ws l) (i + mid)) as [p| |]; try discriminate. cbn [bind] in *.
  destruct (aget (wk l) p) as [k| |]; try discriminate. cbn [bind] in *. destruct (aset (wk sib) (i - 1) k) as [ks| |] eqn:E3; try discriminate. cbn [bind] in E.
  destruct (aget (wv l) p) as [v| |]; try discriminate. cbn [bind] in *. destruct (aset (wv sib) (i - 1) v) as [vs| |] eqn:E4; try discriminate. cbn [bind] in E.
  destruct (IH (S i) _ _ ltac:(lia) E) as (c & -> & EX). cbn [bind]. eexists. split; [reflexivity|]. intros a nn sn.
  cbn [wx_exec wx_step w_step snode ssib nnext snext ws wb wk wv]. rewrite E1. cbn [bind wx_step w_step snode ssib nnext snext ws wb wk wv]. rewrite E2.
  cbn [bind wx_step w_step snode ssib nnext snext ws wb wk wv]. rewrite E3. cbn [bind wx_step w_step snode ssib nnext snext ws wb wk wv]. rewrite E4. cbn [bind]. apply EX.
Qed.
Lemma reset_exec l ns : (forall i, 1 <= i -> aget ns i = aget (ws l) i) -> forall n i b b',
  for_up i n (fun i b => do p <- aget ns (i + 1); bm_reset M b p) b = Ok b' ->
  exists c, wreset_stores l n i = Ok c /\ forall s ks vs sib nn sn, X (SState (WLeaf s b ks vs) sib nn sn) c = Ok (SState (WLeaf s b' ks vs) sib nn sn).
Proof.
  intros HN. induction n as [|n IH]; intros i b b' E; cbn [for_up wreset_stores] in *; [injection E as <-; eexists; split; [reflexivity|]; reflexivity|].
  rewrite HN in E by lia. destruct (aget (ws l) (i + 1)) as [p| |]; try discriminate. cbn [bind] in *.
  destruct (bm_reset M b p) as [b1| |] eqn:E1; try discriminate. cbn [bind] in E.
  destruct (IH (S i) _ _ E) as (c & -> & EX). cbn [bind]. eexists. split; [reflexivity|]. intros s ks vs sib nn sn.
  cbn [wx_exec wx_step w_step snode ssib nnext snext ws wb wk wv]. rewrite E1. cbn [bind]. apply EX.
Qed.

Lemma wlink_prefix (hasNext : bool) st (n : nat) : nnext st = (if hasNext then Some Rest else None) -> snext st = None ->
  exists st', X st (firstn n (wlink_stores V hasNext)) = Ok st' /\ snode st' = snode st /\ ssib st' = ssib st /\
    (length (wlink_stores V hasNext) - 2 < n -> nnext st' = Some Sib) /\
    (n <= length (wlink_stores V hasNext) - 2 -> nnext st' <> Some Sib) /\
    (hasNext = true -> rest_listed st').
Proof.
  intros HN HS. unfold wlink_stores. destruct hasNext; cbn [app length Nat.sub].
  - destruct n as [|[|[|[|n]]]]; cbn [firstn wx_exec wx_step bind]; rewrite ?firstn_nil; cbn [wx_exec]; eexists; (split; [reflexivity|]); cbn [snode ssib nnext snext];
      splits; auto; try lia; try congruence; unfold rest_listed; cbn [nnext snext]; rewrite ?HN; auto.
  - destruct n as [|[|n]]; cbn [firstn wx_exec wx_step bind]; rewrite ?firstn_nil; cbn [wx_exec]; eexists; (split; [reflexivity|]); cbn [snode ssib nnext snext];
      splits; auto; try lia; try congruence; discriminate.
Qed.

Lemma w_split_crash l hasNext : good_leaf M l -> w_count l = Ok M -> 2 <= M -> exists p a b,
  w_split_stores M l hasNext = Ok p /\ w_split M l = Ok (a, b) /\ forall q, exists st, X (x_init l (w_new V M) hasNext) (firstn q p) = Ok st /\
    (length p <= q -> snode st = a /\ ssib st = b /\ nnext st = Some Sib) /\
    wk (snode st) = wk l /\ wv (snode st) = wv l /\ (forall i, 1 <= i -> aget (ws (snode st)) i = aget (ws l) i) /\
    (hasNext = true -> rest_listed st) /\
    (forall k v, list_reaches st k v -> stored M l k v) /\
    ((forall k v, stored M l k v -> list_reaches st k v) <-> q < 2 \/ length p - 2 < q).
Proof.
  intros G E0 HM. unfold w_count in E0. destruct (good_wrep G) as (es & W). pose proof (w_count_ok W) as C. assert (LM : length es = M) by congruence.
  set (mid := (M + 1) / 2). assert (Hmid : 0 < mid /\ mid < M) by (unfold mid; lia).
  set (ea := firstn mid es). set (eb := skipn mid es). assert (ES : es = ea ++ eb) by (unfold ea, eb; now rewrite firstn_skipn).
  assert (LA : length ea = mid) by (unfold ea; rewrite firstn_length; lia). pose proof W as W2. rewrite ES in W2.
  destruct (w_split_ok W2) as (a & b & ESP & WA & WB); auto; [now rewrite <- ES|]. pose proof ESP as ESP0.
  unfold w_split in ESP. rewrite E0 in ESP. cbn [bind] in ESP. fold mid in ESP. destruct (Nat.ltb_spec M mid); [lia|].
  destruct (aset (ws (w_new V M)) 0 (M - mid)) as [ss0| |] eqn:ES0; try discriminate. cbn [bind] in ESP.
  destruct (aset (ws l) 0 mid) as [ns| |] eqn:ENS; try discriminate. cbn [bind] in ESP.
  assert (HNS : forall i, 1 <= i -> aget ns i = aget (ws l) i). { intros i Hi. rewrite (aget_aset i ENS). destruct (Nat.eqb_spec i 0); [lia|auto]. }
  match type of ESP with context [for_up 1 (M - mid) ?f ?s] => destruct (for_up 1 (M - mid) f s) as [sib| |] eqn:EC; try discriminate end. cbn [bind] in ESP.
  destruct (for_up mid (M - mid) _ (wb l)) as [b'| |] eqn:ER; try discriminate. cbn [bind] in ESP.
  destruct (aget (ws sib) 1) as [p1| |]; try discriminate. cbn [bind] in ESP. destruct (aget (wk sib) p1); try discriminate. cbn [bind] in ESP. injection ESP as EA EB.
  destruct (copy_exec HNS (le_n 1) EC) as (c & Ec & XC). destruct (reset_exec HNS ER) as (r & Er & XR).
  pose proof (copy_quiet Ec) as QC. pose proof (reset_quiet Er) as QR.
  set (pre := c ++ r). assert (QP : Forall quiet pre) by (unfold pre; apply Forall_app; auto).
  exists (WSib (WSlot 0 (M - mid)) :: WNode (WSlot 0 mid) :: c ++ r ++ wlink_stores V hasNext), a, b.
  split. { unfold w_split_stores. fold mid. rewrite E0. cbn [bind]. destruct (Nat.ltb_spec M mid); [lia|]. rewrite Ec. cbn [bind]. rewrite Er. reflexivity. }
  split; [exact ESP0|]. intros q.
  (* listings of the two halves *)
  assert (LEN : forall n', length (WSib (WSlot 0 (M - mid)) :: WNode (WSlot 0 mid) :: c ++ r ++ wlink_stores V hasNext) - n' = length pre + length (wlink_stores V hasNext) + 2 - n').
  { intros n'. cbn [length]. unfold pre. rewrite !app_length. lia. }
  assert (LEN0 : length (WSib (WSlot 0 (M - mid)) :: WNode (WSlot 0 mid) :: c ++ r ++ wlink_stores V hasNext) = length pre + length (wlink_stores V hasNext) + 2).
  { specialize (LEN 0). lia. }
  assert (LW : 2 <= length (wlink_stores V hasNext)) by (unfold wlink_stores; destruct hasNext; cbn [app length]; lia).
  pose proof (wrep_good W) as GW. pose proof (wrep_good WA) as GA. pose proof (wrep_good WB) as GB.
  assert (ST : forall k v, stored M l k v <-> stored M a k v \/ stored M b k v).
  { intros k v. rewrite (stored_app WA WB eq_refl); [|rewrite <- ES; exact (wrep_sorted W)]. rewrite <- ES. apply (wrep_stored W). }
  assert (LL : forall k v, stored M l k v <-> listed l k v) by (intros; now apply good_stored_listed).
  (* a leaf with the slots, keys and values of [a] lists what [a] lists *)
  assert (LN : forall x k v, ws x = ns -> wk x = wk l -> wv x = wv l -> (listed x k v <-> stored M a k v)).
  { intros x k v A1 A2 A3. rewrite (good_stored_listed _ _ GA). unfold listed. subst a. cbn [ws wk wv]. now rewrite A1, A2, A3. }
  (* something is in [b] only *)
  assert (LOST : exists k v, stored M l k v /\ ~ stored M a k v).
  { destruct eb as [|(k, v) eb'] eqn:EE; [rewrite ES, app_nil_r in LM; lia|]. exists k, v.
    assert (SO : sorted (ea ++ (k, v) :: eb')) by (rewrite <- ES; exact (wrep_sorted W)).
    split; [apply ST; right|]; [|intros Ha].
    - apply (wrep_stored WB). apply (get_in _ _ (wrep_sorted WB)). now left.
    - apply (key_stored WA) in Ha. unfold keys in Ha. apply in_map_iff in Ha as ((k' & v') & Ek & Ha). cbn [fst] in Ek. subst k'.
      assert (N1 : get k (ea ++ (k, v) :: eb') = Some v) by (apply (get_in _ _ SO), in_or_app; right; now left).
      assert (N2 : get k (ea ++ (k, v) :: eb') = Some v') by (apply (get_in _ _ SO), in_or_app; now left).
      assert (ND : NoDup (map fst (ea ++ (k, v) :: eb'))) by (now apply BTreeMain.sorted_nodup).
      rewrite map_app in ND. cbn [map fst] in ND. apply NoDup_remove_2 in ND. apply ND, in_or_app. left. apply in_map_iff. exists (k, v'). auto. }
  destruct LOST as (k0 & v0 & L0 & N0).
  destruct q as [|[|q]].
  - exists (x_init l (w_new V M) hasNext). cbn [firstn wx_exec]. split; [reflexivity|]. unfold x_init. cbn [snode ssib nnext snext]. splits; auto.
    + rewrite LEN0. lia.
    + intros ->. unfold rest_listed. cbn [nnext]. auto.
    + unfold list_reaches. cbn [snode ssib nnext snext]. intros k v [H1|(H1 & _)]; [now apply LL|destruct hasNext; discriminate].
    + split; [intros; lia|]. intros _ k v H1. left. cbn [snode]. now apply LL.
  - exists (SState l (WLeaf ss0 (wb (w_new V M)) (wk (w_new V M)) (wv (w_new V M))) (if hasNext then Some Rest else None) None).
    unfold x_init. cbn [firstn wx_exec wx_step w_step snode ssib nnext snext]. rewrite ES0. cbn [bind]. split; [reflexivity|]. splits; auto.
    + rewrite LEN0. lia.
    + intros ->. unfold rest_listed. cbn [nnext]. auto.
    + unfold list_reaches. cbn [snode ssib nnext snext]. intros k v [H1|(H1 & _)]; [now apply LL|destruct hasNext; discriminate].
    + split; [intros; lia|]. intros _ k v H1. left. cbn [snode]. now apply LL.
  - set (st1 := SState (WLeaf ns (wb l) (wk l) (wv l)) (WLeaf ss0 (wb (w_new V M)) (wk (w_new V M)) (wv (w_new V M))) (if hasNext then Some Rest else None) None).
    assert (E1 : X (x_init l (w_new V M) hasNext) (firstn (S (S q)) (WSib (WSlot 0 (M - mid)) :: WNode (WSlot 0 mid) :: c ++ r ++ wlink_stores V hasNext))
      = do s <- X st1 (firstn q pre); X s (firstn (q - length pre) (wlink_stores V hasNext))).
    { unfold x_init. cbn [firstn wx_exec wx_step w_step snode ssib nnext snext]. rewrite ES0. cbn [bind snode ssib nnext snext]. rewrite ENS. cbn [bind].
      fold st1. unfold pre. rewrite app_assoc, firstn_app, wx_exec_app. reflexivity. }
    rewrite E1. clear E1.
    assert (XP : X st1 pre = Ok (SState a b (if hasNext then Some Rest else None) None)).
    { unfold pre, st1. rewrite wx_exec_app, XC. cbn [bind]. rewrite XR. now rewrite EA, EB. }
    destruct (wx_prefix q XP) as (s & Es). rewrite Es. cbn [bind].
    assert (QF : Forall quiet (firstn q pre)). { rewrite <- (firstn_skipn q pre) in QP. now apply Forall_app in QP. }
    destruct (quiet_exec QF Es) as (Q1 & Q2 & Q3 & Q4 & Q5). unfold st1 in Q1, Q2, Q3, Q4, Q5. cbn [snode ssib nnext snext ws wk wv] in Q1, Q2, Q3, Q4, Q5.
    destruct (@wlink_prefix hasNext s (q - length pre) Q4 Q5) as (st & Est & SN & SB & LK & NL & RL).
    exists st. split; [exact Est|]. rewrite LEN0, SN, SB.
    assert (DONE : length pre <= q -> s = SState a b (if hasNext then Some Rest else None) None).
    { intros Hq. rewrite firstn_all2 in Es by exact Hq. rewrite XP in Es. now injection Es. }
    splits; auto.
    + intros Hq. rewrite DONE by lia. cbn [snode ssib]. splits; auto. apply LK. lia.
    + rewrite Q1. exact HNS.
    + unfold list_reaches. rewrite SN, SB. intros k v [H1|(H1 & H2)].
      * apply (LN _ k v Q1 Q2 Q3) in H1. apply ST. auto.
      * destruct (Nat.le_gt_cases (length pre) q) as [Hq|Hq].
        -- rewrite DONE in H2 by exact Hq. cbn [ssib] in H2. apply (good_stored_listed _ _ GB) in H2. apply ST. auto.
        -- exfalso. apply NL; [lia|exact H1].
    + split.
      * intros ALL. right. destruct (Nat.le_gt_cases (S (S q)) (length pre + length (wlink_stores V hasNext) + 2 - 2)) as [Hq|]; [exfalso|lia].
        destruct (ALL k0 v0 L0) as [H1|(H1 & _)].
        -- rewrite SN in H1. apply (LN _ k0 v0 Q1 Q2 Q3) in H1. contradiction.
        -- apply NL; [lia|exact H1].
      * intros [?|Hq]; [lia|]. assert (Hq2 : length pre <= q) by lia. intros k v H1. apply ST in H1. unfold list_reaches. rewrite SN, SB, (DONE Hq2). cbn [snode ssib].
        destruct H1 as [H1|H1]; [left; now apply (good_stored_listed _ _ GA)|right]. split; [apply LK; lia|now apply (good_stored_listed _ _ GB)].
Qed.
End X.
