(** Erases that meet the condition of PathSpec, for any [N]; and what the others do. *)
From Verif Require Import Base ArrLemmas MapSpec SortedList RankModel BTreeModel BTreeSpec BTreeLaws BTreeBranch BTreeGhost BTreeInsert
  EraseSpec PathSpec FewSpec BTreeErase BTreeHist BTreeMain EraseG FLeafProofs SLeafModel SLeafProofs ULeafModel ULeafProofs UTreeProofs CutProofs CutEProofs.
Open Scope nat_scope.

(** ** Branch nodes that do not fit *)
Section Fail.
Variables (L : Type) (N : nat).
Notation hp := (heap L).

Definition ubok {A} (m : res A) : Prop := m <> NoFuel.
Lemma aget_ub {A} (a : arr A) i : aget a i = UB \/ exists x, aget a i = Ok x.
Proof. unfold aget. destruct (nth_error a i) as [[x|]|]; eauto. Qed.
Lemma aset_ub {A} (a : arr A) i x : aset a i x = UB /\ length a <= i \/ exists a', aset a i x = Ok a' /\ length a' = length a /\ i < length a.
Proof.
  destruct (Nat.lt_ge_cases i (length a)) as [H|H].
  - destruct (@aset_ok _ a i x H) as (a' & E). right. exists a'. splits; auto. eapply aset_length; eauto.
  - left. split; auto. unfold aset. replace (lset a i (Some x)) with (@None (arr A)); [reflexivity|]. symmetry.
    revert i H. induction a as [|y a IH]; intros i H; [reflexivity|]. destruct i as [|i]; cbn [length] in H; [lia|]. cbn [lset]. now rewrite IH by lia.
Qed.

Lemma merge_loop (nb : branch) sbn n : forall lo ks cs, length ks = N -> N < sbn + lo + n + 1 -> sbn + lo < N ->
  for_up lo n (fun i kc => do ks <- (do x <- aget (bk nb) i; aset (fst kc) (sbn + i + 1) x);
                           do cs <- (do x <- aget (bc nb) (i + 1); aset (snd kc) (sbn + i + 2) x);
                           Ok (ks, cs)) (ks, cs) = (UB : res (arr Z * arr nat)).
Proof.
  induction n as [|n IH]; intros lo ks cs Hl H1 H2; [lia|]. cbn [for_up].
  destruct (aget_ub (bk nb) lo) as [->|(x & ->)]; [reflexivity|]. cbn [bind fst snd].
  destruct (aset_ub ks (sbn + lo + 1) x) as [[-> _]|(a' & -> & La & Lt)]; [reflexivity|]. cbn [bind].
  destruct (aget_ub (bc nb) (lo + 1)) as [->|(y & ->)]; [reflexivity|]. cbn [bind].
  destruct (aset_ub cs (sbn + lo + 2) y) as [[-> _]|(c' & -> & _)]; [reflexivity|]. cbn [bind].
  apply IH; lia.
Qed.

Lemma merge_branch_ub (h : hp) sib key node sb nb : hb h sib = Some sb -> hb h node = Some nb -> length (bk sb) = N -> N < bn sb + 1 + bn nb ->
  merge_branch h sib key node = UB.
Proof.
  intros E1 E2 Hl Hs. unfold merge_branch, getb. rewrite E1, E2. cbn [of_opt bind].
  destruct (aset_ub (bk sb) (bn sb) key) as [[-> _]|(a' & -> & La & Lt)]; [reflexivity|]. cbn [bind].
  destruct (aget_ub (bc nb) 0) as [->|(x & ->)]; [reflexivity|]. cbn [bind].
  destruct (aset_ub (bc sb) (bn sb + 1) x) as [[-> _]|(c' & -> & _)]; [reflexivity|]. cbn [bind].
  rewrite merge_loop; [reflexivity|lia|lia|lia].
Qed.

Lemma room_ub (h : hp) id pos c r b cb : room N h id pos c r = Ok false -> hb h id = Some b -> hb h c = Some cb -> 1 < bn b \/ r = true ->
  length (bk cb) = N -> (forall p pb, 0 < pos -> aget (bc b) (pos - 1) = Ok p -> hb h p = Some pb -> length (bk pb) = N) ->
  underflow_branch N h id pos c = UB.
Proof.
  unfold room, underflow_branch. cbv zeta. intros H Eb Ec HR HC HP. unfold getb in *. rewrite Eb, Ec in H. rewrite Eb. cbn [of_opt bind] in *.
  apply bind_inv in H as (pn & Ep & H). rewrite Ep. cbn [bind].
  apply bind_inv in H as (nn & En & H). injection H as H.
  apply orb_false_elim in H as [H H3]. apply orb_false_elim in H as [H1 H2]. rewrite H1, andb_false_r, En. cbn [bind]. rewrite H2, andb_false_r.
  assert (H4 : N < (if 0 <? pn then pn else nn) + 1 + bn cb).
  { destruct HR as [HR| ->]; [apply Nat.ltb_lt in HR; rewrite HR in H3|rewrite orb_true_r in H3]; cbn [orb andb] in H3; apply Nat.leb_gt in H3; exact H3. }
  destruct (Nat.ltb_spec 0 pn) as [Hp|Hp].
  - destruct (Nat.ltb_spec 0 pos) as [Hq|Hq]; [|injection Ep as <-; lia].
    apply bind_inv in Ep as (p & E1 & Ep). apply bind_inv in Ep as (pb & E2 & Ep). injection Ep as <-. rewrite E1. cbn [bind].
    destruct (aget_ub (bk b) (pos - 1)) as [->|(k & ->)]; [reflexivity|]. cbn [bind].
    unfold of_opt in E2. destruct (hb h p) as [pb'|] eqn:E3; [|discriminate]. injection E2 as ->.
    rewrite (@merge_branch_ub h p k c pb cb E3 Ec (HP p pb Hq E1 E3) H4). reflexivity.
  - destruct (Nat.ltb_spec 0 nn) as [Hn|Hn]; [|reflexivity].
    destruct (Nat.ltb_spec pos (bn b)) as [Hq|Hq]; [|injection En as <-; lia].
    apply bind_inv in En as (n & E1 & En). apply bind_inv in En as (nb & E2 & En). injection En as <-. rewrite E1. cbn [bind].
    destruct (aget_ub (bk b) pos) as [->|(k & ->)]; [reflexivity|]. cbn [bind].
    unfold of_opt in E2. destruct (hb h n) as [nb'|] eqn:E3; [|discriminate]. injection E2 as ->.
    rewrite (@merge_branch_ub h c k n cb nb Ec E3 HC); [reflexivity|lia].
Qed.
End Fail.

(** ** The condition is decided, and the erase is undefined if it fails ([N] from 5 on) *)
Section Exact.
Variables (L V : Type) (N M : nat) (O : leafops L V).
Variable lrep : L -> list (Z * V) -> Prop.
Variable lhint : L -> list (Z * V) -> Z -> Prop.
Variable side : bool -> L -> L -> Prop.
Variables minL minB : nat.
Variable kok : Z -> Prop.
Hypothesis LL : leaf_laws O M minL kok lrep.
Hypothesis EL : erase_core O M lrep lhint side.
Hypothesis HM : 1 <= M.
Hypothesis HmL : minL <= (M + 1) / 2.
Hypothesis HB : minB <= (N + 1) / 2 - 1.
Hypothesis HB2 : 2 <= minB.
Variable guard : heap L -> nat -> nat -> nat -> res bool.
Hypothesis Hg : forall h id pos c, guard h id pos c = Ok true -> good M O side h id pos c.
Notation wf := (wf N M minL minB).
Notation inv := (inv N lrep).
Notation wf0_leaf := (@wf0_leaf V N M minL minB _ _ _ _).
Notation gt := (gt V).
Lemma path_decw r d : forall t A i ks cs B m lo hi k,
  wf m (S d) lo hi (GB i ks cs) -> inb lo hi k -> inv (th t) A [GB i ks cs] B ->
  (forall j l es, find_leaf O (th t) (S d) i k = Ok j -> hl (th t) j = Some l -> lrep l es -> sorted es -> get k es = get k (ents cs) ->
    exists l', lo_erase O l k = Ok (r, l') /\ lhint l' (del k es) k) ->
  1 <= length ks -> S d <= tdepth t -> 2 <= length ks \/ S d = tdepth t ->
  all_good M O side \/ leaf_guard M O guard (th t) (S d) i k = Ok true ->
  exists x, path_ok N M O t (S d) i k = Ok x /\ (x = false -> erase_branch N M O t (S d) i k = UB) /\ (d = 0 -> x = true).
Proof.
  induction d as [|d IH]; intros t A i ks cs B m lo hi k HW Hk HI ER H1 HD H2 AG.
  - exists true. split; [|split; [discriminate|auto]]. destruct HW as [HC HK]. cbn [mn] in HK.
    apply inv_GB in HI as (HI & Hfi & Hni & (b & Eb & Hb)). cbn [fst snd] in *.
    destruct (route HK Hk) as (a & bb & CA & c & CB & -> & -> & LA & LB & Ha & Hbb & KL & Rc & Bc & KR & Hkc).
    destruct (kids_sorted HK) as [HS _].
    destruct (wf0_leaf Rc) as (j & es & -> & Ss & Fs & Cs).
    change (CA ++ GL j es :: CB) with (CA ++ [GL j es] ++ CB) in *.
    pose proof (inv_sub HI) as HIc.
    destruct (ctx_ents (@wf_okc V N M minL minB minL 0) KL KR Hkc) as [HA HBB].
    destruct (inv_GL HIc) as (l & El & Hl & _).
    destruct (ER j l es) as (l' & EE & Hh); [|exact El|exact Hl|exact Ss|rewrite !ents_app, ents_GL, get_app_lt, get_app_gt by assumption; reflexivity|].
    { cbn [find_leaf]. unfold getb. rewrite Eb. cbn [of_opt bind]. rewrite (@bpos_ok L V N M O lrep minL kok LL b a bb _ k Hb HS Ha Hbb). cbn [bind].
      rewrite (@kid_at V N b _ CA (GL j es) CB (length a) Hb) by auto. reflexivity. }
    assert (Hbn : bn b = length (a ++ bb)) by apply Hb.
    cbn [path_ok]. unfold getb at 1. rewrite Eb. cbn [of_opt bind].
    rewrite (@bpos_ok L V N M O lrep minL kok LL b a bb _ k Hb HS Ha Hbb). cbn [bind].
    rewrite (@kid_at V N b _ CA (GL j es) CB (length a) Hb) by auto. cbn [bind gid].
    unfold erase_leaf, getl at 1. rewrite El. cbn [of_opt bind]. rewrite EE. cbn [bind fst snd].
    unfold getl at 1. cbn [set_leaf hl]. rewrite upd_same'. cbn [of_opt bind].
    destruct (lo_count O l' <? (M + 1) / 2); [|reflexivity].
    assert (HL : exists x, lend_leaf M O (set_leaf (th t) j l') i (length a) j = Ok x).
    { pose proof (uo_inv (upd_ctx HI (set_leaf_upd HIc (law_hint EL Hh)))) as HI2.
      set (h2 := set_leaf (th t) j l') in *. unfold lend_leaf, getb. replace (hb h2 i) with (Some b) by (symmetry; exact Eb). cbn [of_opt bind].
      assert (NX : length a < bn b -> exists n nl, hnx h2 j = Some n /\ hl h2 n = Some nl).
      { intros Hlt. destruct bb as [|y b0]; [rewrite Hbn, app_nil_r in Hlt; lia|]. destruct CB as [|g CB0]; [discriminate|].
        cbn [kr] in KR. destruct KR as (_ & Wg & _). destruct (wf0_leaf Wg) as (n & en & -> & _).
        change ([GL j (del k es)] ++ GL n en :: CB0) with ([GL j (del k es); GL n en] ++ CB0) in HI2. apply inv_sub in HI2.
        destruct (inv_pair HI2) as (l1 & l2 & _ & _ & X1 & _ & _ & _ & _ & _ & _ & _ & _ & _ & _ & _ & X2 & _). eauto. }
      assert (PX : 0 < length a -> exists n nl, hpv h2 j = Some n /\ hl h2 n = Some nl).
      { intros Hlt. destruct (rev_case a) as [->|(a0 & x & ->)]; [cbn [length] in Hlt; lia|].
        rewrite app_length in LA. cbn [length] in LA. destruct (rev_case CA) as [->|(CA0 & g & ->)]; [cbn [length] in LA; lia|].
        rewrite app_length in LA. cbn [length] in LA. apply kl_snoc in KL; [|lia]. destruct KL as (_ & _ & Wg). destruct (wf0_leaf Wg) as (n & en & -> & _).
        rewrite <- app_assoc in HI2. change ([GL n en] ++ [GL j (del k es)] ++ CB) with ([GL n en; GL j (del k es)] ++ CB) in HI2. apply inv_sub in HI2.
        destruct (inv_pair HI2) as (l1 & l2 & X1 & _ & _ & _ & _ & _ & _ & _ & _ & _ & _ & _ & _ & _ & _ & X2 & _). eauto. }
      destruct (Nat.ltb_spec 0 (length a)) as [H0|H0].
      - destruct (PX H0) as (p & pl & -> & X1). cbn [of_opt bind]. unfold getl. rewrite X1. cbn [of_opt bind].
        destruct (Nat.ltb_spec (length a) (bn b)) as [H3|H3]; [|cbn [bind]; eauto].
        destruct (NX H3) as (n & nl & -> & X2). cbn [of_opt bind]. rewrite X2. cbn [of_opt bind]. eauto.
      - cbn [bind]. destruct (Nat.ltb_spec (length a) (bn b)) as [H3|H3]; [|cbn [bind]; eauto].
        destruct (NX H3) as (n & nl & -> & X2). cbn [of_opt bind]. unfold getl. rewrite X2. cbn [of_opt bind]. eauto. }
    destruct HL as (x & ->). cbn [bind]. f_equal. destruct H2 as [H2|H2].
    + rewrite Hbn. replace (1 <? length (a ++ bb)) with true by (symmetry; apply Nat.ltb_lt; lia). destruct x; reflexivity.
    + rewrite <- H2. change (1 =? 1) with true. apply orb_true_r.
  - destruct HW as [HC HK]. cbn [mn] in HK. pose proof HI as HI0.
    apply inv_GB in HI as (HI & Hfi & Hni & (b & Eb & Hb)). cbn [fst snd] in *.
    destruct (route HK Hk) as (a & bb & CA & c & CB & -> & -> & LA & LB & Ha & Hbb & KL & Rc & Bc & KR & Hkc).
    destruct (kids_sorted HK) as [HS _].
    destruct (wfS_branch Rc) as (j & kc & cc & -> & Cc & Kc).
    change (CA ++ GB j kc cc :: CB) with (CA ++ [GB j kc cc] ++ CB) in *.
    pose proof (inv_sub HI) as HIc.
    destruct (ctx_ents (@wf_okc V N M minL minB minB (S d)) KL KR Hkc) as [HA HBB].
    assert (EG : get k (ents (CA ++ [GB j kc cc] ++ CB)) = get k (ents cc)).
    { rewrite !ents_app, ents_GB. rewrite get_app_lt by assumption. now rewrite get_app_gt. }
    assert (EF : find_leaf O (th t) (S (S d)) i k = find_leaf O (th t) (S d) j k).
    { change (find_leaf O (th t) (S (S d)) i k) with (do b <- getb (th t) i; do pos <- lo_bpos O (bk b) (bn b) k; do c <- aget (bc b) pos; find_leaf O (th t) (S d) c k).
      unfold getb at 1. rewrite Eb. cbn [of_opt bind]. rewrite (@bpos_ok L V N M O lrep minL kok LL b a bb _ k Hb HS Ha Hbb). cbn [bind].
      rewrite (@kid_at V N b _ CA (GB j kc cc) CB (length a) Hb) by auto. reflexivity. }
    rewrite EF, EG in ER.
    assert (AG1 : all_good M O side \/ leaf_guard M O guard (th t) (S d) j k = Ok true).
    { destruct AG as [AG|AG]; [now left|right]. change (leaf_guard M O guard (th t) (S (S d)) i k) with
        (do b <- getb (th t) i; do pos <- lo_bpos O (bk b) (bn b) k; do c <- aget (bc b) pos; leaf_guard M O guard (th t) (S d) c k) in AG.
      unfold getb in AG at 1. rewrite Eb in AG. cbn [of_opt bind] in AG. rewrite (@bpos_ok L V N M O lrep minL kok LL b a bb _ k Hb HS Ha Hbb) in AG. cbn [bind] in AG.
      rewrite (@kid_at V N b _ CA (GB j kc cc) CB (length a) Hb) in AG by auto. exact AG. }
    destruct (IH t _ j kc cc _ minB _ _ k Rc Hkc HIc ER ltac:(lia) ltac:(lia) ltac:(left; lia) AG1) as (x & Ex & Hx & _).
    rewrite path_ok_2, erase_branch_2. unfold getb at 1 3. rewrite Eb. cbn [of_opt bind].
    rewrite (@bpos_ok L V N M O lrep minL kok LL b a bb _ k Hb HS Ha Hbb). cbn [bind].
    assert (EC : aget (bc b) (length a) = Ok j) by (rewrite (@kid_at V N b _ CA (GB j kc cc) CB (length a) Hb) by auto; reflexivity).
    rewrite EC. cbn [bind]. rewrite Ex. cbn [bind].
    destruct x.
    2:{ exists false. splits; auto; [|discriminate]. intros _. rewrite Hx by reflexivity. reflexivity. }
    destruct (@erase_branch_ok L V N M O lrep lhint side minL minB kok LL EL HM HmL HB ltac:(lia) guard Hg r d t (A ++ lids CA) j kc cc (lids CB ++ B) minB
      (lb lo a) (hbd bb hi) k Rc Hkc HIc) as (t1 & EE & [HR|HR]); auto; try lia.
    2:{ destruct HR as (_ & HR & _). lia. }
    destruct HR as (R1 & R2 & kc' & cc' & U0 & EN & KK & Hlen & Hge).
    rewrite EE. cbn [bind fst].
    pose proof (upd_ctx HI U0) as UC.
    assert (Eb1 : hb (th t1) i = Some b) by (rewrite (fr_b (uo_fr UC)); auto).
    assert (Ecb : exists cb, hb (th t1) j = Some cb /\ bn cb = length kc').
    { pose proof (uo_inv U0) as J. apply inv_GB in J as (_ & _ & _ & (cb & E & R)). exists cb. split; auto. apply R. }
    destruct Ecb as (cb & Ecb & Ncb).
    unfold getb at 1 2. rewrite Ecb, Eb1. cbn [of_opt bind].
    rewrite (@bpos_ok L V N M O lrep minL kok LL b a bb _ k Hb HS Ha Hbb). cbn [bind]. unfold getb at 1. rewrite Ecb. cbn [of_opt bind].
    rewrite Ncb. destruct (Nat.ltb_spec (length kc') ((N + 1) / 2)) as [HU|HU]; [|exists true; splits; auto; discriminate].
    assert (Hbn : bn b = length (a ++ bb)) by apply Hb.
    assert (Hb1 : brep N b (a ++ bb) (map (@gid V) (CA ++ [GB j kc' cc'] ++ CB))) by (rewrite map_app in *; exact Hb).
    (* the node above, in the state after the erase below it *)
    assert (RD : exists x, room N (th t1) i (length a) j (S (S d) =? tdepth t) = Ok x /\
      (x = false -> 1 < bn b \/ (S (S d) =? tdepth t) = true -> underflow_branch N (th t1) i (length a) j = UB)).
    { assert (KK2 : forall q, q <= length (a ++ bb) -> exists p kp cp pb, aget (bc b) q = Ok p /\ hb (th t1) p = Some pb /\ brep N pb kp cp).
      { intros q Hq. pose proof (uo_inv UC) as J. 
        assert (HQ : exists g, nth_error (CA ++ [GB j kc' cc'] ++ CB) q = Some g /\ exists n kn cn, g = GB n kn cn).
        { destruct (nth_error (CA ++ [GB j kc' cc'] ++ CB) q) as [g|] eqn:Eg.
          2:{ apply nth_error_None in Eg. rewrite !app_length in *. cbn [length] in *. lia. }
          exists g. split; auto. apply nth_error_In in Eg. rewrite !in_app_iff in Eg.
          destruct Eg as [Eg|[[<-|[]]|Eg]]; [|eauto|].
          - assert (In g (CA ++ [GB j kc cc] ++ CB)) as HG2 by (rewrite !in_app_iff; auto).
            destruct (@kids_mono _ _ _ _ _ _ HK g HG2) as (x & y & _ & Wg). destruct (wfS_branch Wg) as (n & kn & cn & -> & _). eauto.
          - assert (In g (CA ++ [GB j kc cc] ++ CB)) as HG2 by (rewrite !in_app_iff; auto).
            destruct (@kids_mono _ _ _ _ _ _ HK g HG2) as (x & y & _ & Wg). destruct (wfS_branch Wg) as (n & kn & cn & -> & _). eauto. }
        destruct HQ as (g & Eg & n & kn & cn & ->).
        destruct (nth_error_split _ _ Eg) as (CA2 & CB2 & EQ & _). rewrite EQ in J. apply (inv_sub (gs := [GB n kn cn])) in J.
        apply inv_GB in J as (_ & _ & _ & (pb & E3 & R3)). cbn [fst snd] in *. exists n, kn, (map (@gid V) cn), pb. splits; auto.
        change n with (gid (GB n kn cn)). eapply brep_kid; [exact Hb1|]. now rewrite nth_error_map, Eg. }
      assert (HX : exists x, room N (th t1) i (length a) j (S (S d) =? tdepth t) = Ok x).
      { unfold room, getb. rewrite Eb1, Ecb. cbn [of_opt bind]. rewrite app_length in *. destruct (Nat.ltb_spec 0 (length a)) as [H0|H0].
        - destruct (KK2 (length a - 1)) as (p & kp & cp & pb & -> & E3 & _); [lia|]. cbn [bind]. rewrite E3. cbn [of_opt bind].
          destruct (Nat.ltb_spec (length a) (bn b)) as [H3|H3]; [|cbn [bind]; eauto].
          destruct (KK2 (length a + 1)) as (n & kn & cn & nb & -> & E4 & _); [lia|]. cbn [bind]. rewrite E4. cbn [of_opt bind]. eauto.
        - cbn [bind]. destruct (Nat.ltb_spec (length a) (bn b)) as [H3|H3]; [|cbn [bind]; eauto].
          destruct (KK2 (length a + 1)) as (n & kn & cn & nb & -> & E4 & _); [lia|]. cbn [bind]. rewrite E4. cbn [of_opt bind]. eauto. }
      destruct HX as (x & HX). exists x. split; auto. intros -> HR. rewrite app_length in *. eapply room_ub; eauto.
      - destruct (KK2 (length a)) as (j' & ? & ? & cb' & E3 & E4 & R4); [lia|]. assert (j' = j) as -> by congruence. assert (cb' = cb) as -> by congruence. apply R4.
      - intros p pb Hp EP EB. destruct (KK2 (length a - 1)) as (p' & kp & cp & pb' & E3 & E4 & R4); [lia|]. assert (p' = p) as -> by congruence.
        assert (pb' = pb) as -> by congruence. apply R4. }
    destruct RD as (x & -> & Hf). exists x. splits; auto; [|discriminate]. intros ->. rewrite Hf; [reflexivity|reflexivity|].
    destruct H2 as [H2|H2]; [left; lia|right; now apply Nat.eqb_eq].
Qed.

Lemma path_dec r d : forall t A i ks cs B m lo hi k,
  wf m (S d) lo hi (GB i ks cs) -> inb lo hi k -> inv (th t) A [GB i ks cs] B ->
  (forall l es, lrep l es -> get k es = get k (ents cs) -> exists l', lo_erase O l k = Ok (r, l') /\ lhint l' (del k es) k) ->
  1 <= length ks -> S d <= tdepth t -> 2 <= length ks \/ S d = tdepth t ->
  all_good M O side \/ leaf_guard M O guard (th t) (S d) i k = Ok true ->
  exists x, path_ok N M O t (S d) i k = Ok x /\ (x = false -> erase_branch N M O t (S d) i k = UB) /\ (d = 0 -> x = true).
Proof. intros t A i ks cs B m lo hi k HW Hk HI ER. apply (@path_decw r d t A i ks cs B m lo hi k HW Hk HI). intros j l es _ _ Hl _. now apply ER. Qed.
End Exact.

(** ** Histories *)
Section Hist.
Variables (L V : Type) (N M : nat) (O : leafops L V).
Variable lrep : L -> list (Z * V) -> Prop.
Variable lhint : L -> list (Z * V) -> Z -> Prop.
Hypothesis LL : leaf_laws O M (M / 2) (fun _ => True) lrep.
Hypothesis SL : scan_laws O lrep.
Hypothesis EL : erase_laws O M lrep lhint.
Hypothesis HM : 2 <= M.
Hypothesis HN : 3 <= N.
Notation minL := (M / 2).
Notation minB := ((N + 1) / 2 - 1).
Notation tinv := (tinv N M lrep minL minB).
Lemma HN2 : 2 <= N.
Proof. lia. Qed.
Let noguard (h : heap L) (i p c : nat) : res bool := UB.
Lemma noguard_free : forall h i p c, noguard h i p c = Ok true -> good M O (fun _ _ _ => True) h i p c.
Proof. discriminate. Qed.
Definition may_erase (t : tree L) (k : Z) : bool :=
  (tdepth t <=? 1) || match path_ok N M O t (tdepth t) (troot t) k with Ok b => b | _ => false end.

Lemma path_erase t es k : tinv t es -> get k es <> None -> may_erase t k = true -> exists t', t_erase N M O t k = Ok (t', true) /\ tinv t' (del k es).
Proof.
  intros I HG HP. destruct (tinv_tinvf I) as (f & If).
  destruct (@t_erase_genf_w L V N M O lrep lhint (fun _ _ _ => True) minL minB (fun _ => True) LL EL ltac:(lia) ltac:(lia) ltac:(lia) ltac:(lia) noguard noguard_free f true t es k If)
    as (t' & E & I').
  - intros j l es' _ _ Hl _ E. apply (law_erase EL Hl). now rewrite E.
  - right. unfold may_erase in HP. apply orb_prop in HP as [HP|HP]; [right; now apply Nat.leb_le|left].
    destruct (path_ok N M O t (tdepth t) (troot t) k) as [[|]| |]; auto; discriminate.
  - left. exact (free_good EL).
  - exists t'. split; auto. eapply tinvf_tinv; eauto.
Qed.

Lemma path_exact t es k : 5 <= N -> tinv t es -> get k es <> None ->
  exists b, path_ok N M O t (tdepth t) (troot t) k = Ok b /\ (b = false -> t_erase N M O t k = UB).
Proof.
  intros HN5 (g & Eg & W & I & <-) HG. destruct t as [h x d]. cbn [troot tdepth th] in *. subst x. destruct d as [|d].
  - exists true. split; [reflexivity|discriminate].
  - destruct (wfS_branch W) as (j & ks & cs & -> & Cs & KK). rewrite ents_GB in *. cbn [gid rmin] in *.
    destruct (@path_dec L V N M O lrep lhint (fun _ _ _ => True) minL minB (fun _ => True) LL EL ltac:(lia) ltac:(lia) ltac:(lia) ltac:(lia)
      noguard noguard_free true d (Tree h j (S d)) [] j ks cs [] 1 None None k W ltac:(split; exact Logic.I) I) as (b & E & Hb & _);
      cbn [tdepth]; auto; try lia.
    { intros l es Hl E. apply (law_erase EL Hl). now rewrite E. }
    { left. exact (free_good EL). }
    exists b. split; auto.
Qed.

Lemma step_map t es m k v : tinv t es -> (forall x, get x es = m x) -> (forall x, get x (ins k v es) = m_step m (OpInsert k v) x).
Proof. intros I G x. rewrite get_ins by (eapply tinv_sorted; eauto). cbn [m_step]. unfold m_put. destruct (x =? k)%Z; auto. Qed.
Lemma step_map_e t es m k : tinv t es -> (forall x, get x es = m x) -> (forall x, get x (del k es) = m_step m (OpErase _ k) x).
Proof. intros I G x. rewrite get_del by (eapply tinv_sorted; eauto). cbn [m_step]. unfold m_del. destruct (x =? k)%Z; auto. Qed.

Lemma hist_path os : forall t es m, tinv t es -> (forall k, get k es = m k) -> hist_ok m os -> path_fine N M O t (map bop_of os) = true ->
  exists t' es', t_run N M O t (map bop_of os) = Ok t' /\ tinv t' es' /\ forall k, get k es' = fold_left (@m_step V) os m k.
Proof.
  induction os as [|o os IH]; intros t es m I E F FP; cbn [map t_run fold_left]; [eauto|].
  cbn [hist_ok] in F. destruct F as [Fo F']. cbn [map path_fine] in FP. apply andb_prop in FP as [FG FP]. destruct o as [k v|k]; cbn [bop_of t_step] in FG, FP |- *.
  - destruct (t_insert_ok LL HN2 (Nat.le_refl _) (k := k) v Logic.I I) as (t1 & E1 & I1). rewrite E1 in FP |- *. cbn [bind].
    eapply IH; eauto. eapply step_map; eauto.
  - cbn [op_ok] in Fo. rewrite <- E in Fo. destruct (path_erase I Fo FG) as (t1 & E1 & I1). rewrite E1 in FP |- *. cbn [bind fst] in FP |- *.
    eapply IH; eauto. eapply step_map_e; eauto.
Qed.

Lemma hist_path_ub os : 5 <= N -> forall t es m, tinv t es -> (forall k, get k es = m k) -> hist_ok m os -> path_fine N M O t (map bop_of os) = false ->
  t_run N M O t (map bop_of os) = UB.
Proof.
  intros HN5. induction os as [|o os IH]; intros t es m I E F FP; cbn [map t_run]; [discriminate|].
  cbn [hist_ok] in F. destruct F as [Fo F']. cbn [map path_fine] in FP. destruct o as [k v|k]; cbn [bop_of t_step] in FP |- *.
  - destruct (t_insert_ok LL HN2 (Nat.le_refl _) (k := k) v Logic.I I) as (t1 & E1 & I1). rewrite E1 in FP |- *. cbn [bind andb] in *.
    eapply IH; eauto. eapply step_map; eauto.
  - cbn [op_ok] in Fo. rewrite <- E in Fo. 
    match type of FP with ?c && _ = _ => change c with (may_erase t k) in FP end. destruct (may_erase t k) eqn:EM.
    + destruct (path_erase I Fo EM) as (t1 & E1 & I1). rewrite E1 in FP |- *. cbn [bind fst andb] in FP |- *.
      eapply IH; eauto. eapply step_map_e; eauto.
    + destruct (path_exact HN5 I Fo) as (b & E1 & Hb). unfold may_erase in EM. rewrite E1 in EM. apply orb_false_elim in EM as [_ ->].
      rewrite Hb by reflexivity. reflexivity.
Qed.

Lemma tinv_small t es : tinv t es -> length es < 2 * ((N + 1) / 2 * (M / 2)) -> tdepth t <= 1.
Proof.
  intros I HL. pose proof (tinv_shape LL I) as HS. destruct (tdepth t) as [|[|d]]; auto. exfalso.
  apply shape_root_low in HS. replace (S ((N + 1) / 2 - 1)) with ((N + 1) / 2) in HS by lia. cbn [Nat.pow] in HS.
  assert (1 <= ((N + 1) / 2) ^ d). { apply Nat.neq_0_lt_0, Nat.pow_nonzero. lia. }
  assert ((N + 1) / 2 * (M / 2) <= (N + 1) / 2 * ((N + 1) / 2) ^ d * (M / 2)) by nia. lia.
Qed.

Lemma few_path os : forall t es m, tinv t es -> (forall k, get k es = m k) -> hist_ok m os -> few_hist (2 * ((N + 1) / 2 * (M / 2))) m os ->
  path_fine N M O t (map bop_of os) = true.
Proof.
  induction os as [|o os IH]; intros t es m I E F FW; cbn [map path_fine]; [reflexivity|].
  cbn [hist_ok] in F. destruct F as [Fo F']. cbn [few_hist] in FW. destruct FW as [FW FW'].
  assert (HD : tdepth t <= 1).
  { eapply tinv_small; [exact I|]. pose proof (tinv_sorted I) as Ss. replace (length es) with (length (map fst es)) by apply map_length.
    apply FW; [now apply sorted_nodup|]. intros k Hk. rewrite <- E. intros G. exact (proj1 (get_none k Ss) G Hk). }
  assert (HK : forall k, may_erase t k = true) by (intros k; unfold may_erase; apply Nat.leb_le in HD; now rewrite HD).
  destruct o as [k v|k]; cbn [bop_of t_step].
  - destruct (t_insert_ok LL HN2 (Nat.le_refl _) (k := k) v Logic.I I) as (t1 & E1 & I1). rewrite E1. cbn [bind andb].
    eapply IH; eauto. eapply step_map; eauto.
  - cbn [op_ok] in Fo. rewrite <- E in Fo. destruct (path_erase I Fo (HK k)) as (t1 & E1 & I1). rewrite E1. cbn [bind fst].
    unfold may_erase in HK. rewrite HK. cbn [andb]. eapply IH; eauto. eapply step_map_e; eauto.
Qed.

(** What follows from the invariant. *)
Lemma path_all os lo hi : hist_ok m_empty os -> path_fine N M O (t_new O) (map bop_of os) = true ->
  exists t out rng, t_run N M O (t_new O) (map bop_of os) = Ok t /\
    (forall k, t_lookup O t k = Ok (m_run os k)) /\
    t_scan O t = Ok out /\ lists (m_run os) out /\
    t_range O t lo hi = Ok rng /\ lists_range (m_run os) lo hi rng /\
    shape N M (M / 2) ((N + 1) / 2 - 1) O (th t) (tdepth t) true (troot t) (length out).
Proof.
  intros F FP. destruct (@hist_path os (t_new O) [] m_empty) as (t & es & E & I & G); auto.
  { eapply tinv_new; eauto; lia. }
  exists t, es, (filter (in_range lo hi) es). splits; auto.
  - intros k. rewrite (t_lookup_ok LL k I). now rewrite G.
  - eapply t_scan_ok; [| |exact SL|exact I]; lia.
  - eapply lists_ext; [exact G|]. apply sorted_lists. eapply tinv_sorted; eauto.
  - eapply t_range_ok; [exact LL| | |exact SL|exact I]; lia.
  - eapply lists_range_ext; [exact G|]. apply sorted_lists_range. eapply tinv_sorted; eauto.
  - eapply tinv_shape; eauto.
Qed.

Lemma small_all os lo hi : hist_ok m_empty os -> few_hist (2 * ((N + 1) / 2 * (M / 2))) m_empty os ->
  exists t out rng, t_run N M O (t_new O) (map bop_of os) = Ok t /\
    (forall k, t_lookup O t k = Ok (m_run os k)) /\
    t_scan O t = Ok out /\ lists (m_run os) out /\
    t_range O t lo hi = Ok rng /\ lists_range (m_run os) lo hi rng /\
    shape N M (M / 2) ((N + 1) / 2 - 1) O (th t) (tdepth t) true (troot t) (length out).
Proof. intros F FW. apply path_all; auto. apply (@few_path os (t_new O) [] m_empty); auto. eapply tinv_new; eauto; lia. Qed.

(** From [N = 5] on the condition decides what happens. *)
Lemma exact_all os k : 5 <= N -> hist_ok m_empty os ->
  (path_fine N M O (t_new O) (map bop_of os) = true <-> exists t, t_run N M O (t_new O) (map bop_of os) = Ok t) /\
  (path_fine N M O (t_new O) (map bop_of os) = false <-> t_run N M O (t_new O) (map bop_of os) = UB) /\
  (forall t, t_run N M O (t_new O) (map bop_of os) = Ok t -> m_run os k <> None ->
     path_ok N M O t (tdepth t) (troot t) k = Ok true /\
       (exists t', t_erase N M O t k = Ok (t', true) /\ forall x, t_lookup O t' x = Ok (m_del (m_run os) k x)) \/
     path_ok N M O t (tdepth t) (troot t) k = Ok false /\ t_erase N M O t k = UB).
Proof.
  intros HN5 F. assert (I0 : tinv (t_new O) []) by (eapply tinv_new; eauto; lia).
  assert (HT := @hist_path os (t_new O) [] m_empty I0 (fun _ => eq_refl) F).
  assert (HF := @hist_path_ub os HN5 (t_new O) [] m_empty I0 (fun _ => eq_refl) F).
  destruct (path_fine N M O (t_new O) (map bop_of os)).
  - destruct (HT eq_refl) as (t & es & E & I & G). rewrite E. splits.
    + split; eauto.
    + split; discriminate.
    + intros t0 E0 Hk. injection E0 as <-. assert (HG : get k es <> None) by (rewrite G; exact Hk).
      destruct (path_exact HN5 I HG) as (b & Eb & Hb). destruct b; [left|right; auto]. split; auto.
      destruct (@path_erase t es k I HG) as (t1 & E1 & I1); [unfold may_erase; rewrite Eb; apply orb_true_r|].
      exists t1. split; auto. intros x. rewrite (t_lookup_ok LL x I1). rewrite get_del by (eapply tinv_sorted; eauto). unfold m_del. now rewrite G.
  - rewrite (HF eq_refl). splits.
    + split; [discriminate|intros (t & ?); discriminate].
    + split; auto.
    + intros t0 E0. discriminate.
Qed.
End Hist.

(** Histories over few keys. *)
Lemma few_keys {V} B (K : list Z) (os : list (mop V)) : length K < B -> Forall (fun o => match o with OpInsert k _ => In k K | OpErase _ _ => True end) os ->
  forall m, (forall k, m k <> None -> In k K) -> few_hist B m os.
Proof.
  intros HL. induction 1 as [|o os Ho _ IH]; intros m Hm; cbn [few_hist].
  - split; auto. intros ks Hn Hk. eapply Nat.le_lt_trans; [|exact HL]. apply NoDup_incl_length; auto. intros x Hx. auto.
  - split.
    + intros ks Hn Hk. eapply Nat.le_lt_trans; [|exact HL]. apply NoDup_incl_length; auto. intros x Hx. auto.
    + apply IH. intros x. destruct o as [k v|k]; cbn [m_step]; unfold m_put, m_del; destruct (Z.eqb_spec x k); subst; auto.
Qed.
