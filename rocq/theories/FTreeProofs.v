(** FPTree: erasing from and merging leaves; trees of a single leaf. *)
From Verif Require Import Base ArrLemmas MapSpec SortedList SearchModel RankModel RankProofs
  BitmapModel BitmapProofs PopcountProofs BTreeModel BTreeSpec BTreeLaws SLeafModel SLeafProofs ULeafModel ULeafProofs UTreeProofs SlotLemmas
  FLeafModel FLeafProofs.
Open Scope nat_scope.

Section FTree.
Variables (V : Type) (t : ktype) (fp : Z -> Z) (junk : nat -> Z) (N M : nat).
Hypothesis HM : 2 <= M.
Hypothesis HW : (N.of_nat M < W)%N.
Hypothesis Ht : (1 <= kt_bits t <= 64)%Z.
Notation leaf := (fleaf V).
Implicit Types (xs es ed er : list (Z * V)) (sl sd sr : list (option (Z * V))) (l dl rl : leaf).
Notation O := (fp_ops V t fp junk M).
Notation fl_rep := (fl_rep t fp M).
Notation fa_rep := (fa_rep fp M).

Lemma fl_erase_ok l es k : fl_rep l es -> get k es <> None ->
  exists l', fl_erase fp M l k = Ok (true, l') /\ fl_rep l' (del k es).
Proof.
  clear HM HW Ht; try clear junk; clear N. intros (HS & HK & sl & HP & HR) HG. unfold fl_erase.
  destruct (fl_pos_ok k HR) as (r & -> & C). cbn [bind]. destruct C as [[-> NI]|[Hr (v & Ev)]].
  - exfalso. apply HG. apply get_none; auto. intros HI. apply NI. now apply (keys_perm_in k HP).
  - destruct (Nat.ltb_spec r M); [|lia]. destruct (fl_clear_ok HR Hr) as (l' & sl' & E & _ & _ & _ & Es & R').
    rewrite E. cbn [bind]. exists l'. split; auto. unfold FLeafProofs.fl_rep. splits.
    + now apply sorted_del.
    + rewrite Forall_forall in *. intros z Hz. apply HK. eapply del_in_keys; eauto.
    + exists sl'. split; auto. destruct (somes_unset Ev Es) as (a & b & E1 & E2). rewrite E2. rewrite E1 in HP.
      eapply del_perm; eauto.
Qed.

Lemma fl_erase_absent l es k : fl_rep l es -> get k es = None -> fl_erase fp M l k = Ok (false, l).
Proof.
  clear HM HW Ht; try clear junk; clear N. intros (HS & HK & sl & HP & HR) HG. unfold fl_erase.
  destruct (fl_pos_ok k HR) as (r & -> & C). cbn [bind]. destruct C as [[-> NI]|[Hr (v & Ev)]].
  - now rewrite Nat.ltb_irrefl.
  - exfalso. apply get_none in HG; auto. apply HG. apply (keys_perm_in k HP). eapply in_keys_slot; eauto.
Qed.

Lemma fl_merge_loop l2 sl2 : fa_rep l2 sl2 -> forall n i l sl, i + n = M -> fa_rep l sl ->
  length (somes sl) + length (somes (skipn i sl2)) <= M ->
  exists l' sl', for_up i n (fun i l =>
    do b <- bm_test M (fb l2) i;
    if (b : bool) then
      do p <- getFreeZero (fb l);
      do h <- lget (ff l2) i;
      do k <- aget (fk l2) i;
      do v <- aget (fv l2) i;
      fl_put M l p k v h
    else Ok l) l = Ok l' /\ fa_rep l' sl' /\ Permutation (somes sl') (somes sl ++ somes (skipn i sl2)).
Proof.
  clear HM HW Ht; try clear junk; clear N. intros R2. pose proof R2 as (L2 & B2 & _ & _ & _ & C2).
  induction n as [|n IH]; intros i l sl Hi R HL; cbn [for_up].
  - exists l, sl. splits; auto. rewrite skipn_all2 by lia. cbn [somes]. now rewrite app_nil_r.
  - destruct (@fa_at V fp M l2 sl2 i R2) as (o & Eo & Co); [lia|]. rewrite (skipn_at Eo) in HL |- *.
    rewrite bm_test_ok by (auto; lia). cbn [bind]. destruct o as [[k v]|]; cbn [cell] in Co; cbn [somes] in *.
    + destruct Co as (-> & Ek & Ev & Ef). destruct (free_ok R) as (r & -> & Hr & H1 & H2). cbn [bind].
      rewrite Ef, Ek, Ev. cbn [bind]. cbn [length] in HL. assert (Hlt : r < M) by lia. specialize (H1 Hlt).
      destruct (@fl_put_ok V fp M l sl r k v (fp k) R Hlt eq_refl) as (l1 & sl1 & E & Es & R1). rewrite E. cbn [bind].
      pose proof (somes_set H1 eq_refl Es) as P1.
      destruct (IH (S i) l1 sl1) as (l' & sl' & E' & R' & P'); auto; [lia| |].
      { rewrite (Permutation_length P1). cbn [length]. lia. }
      rewrite E'. exists l', sl'. splits; auto. rewrite P', P1. cbn [app]. apply Permutation_middle.
    + rewrite Co. cbn [bind]. apply IH; auto. lia.
Qed.

Lemma fl_merge_ok l1 l2 e1 e2 : fl_rep l1 e1 -> fl_rep l2 e2 -> sorted (e1 ++ e2) -> length e1 + length e2 <= M ->
  exists l, fl_merge M l1 l2 = Ok l /\ fl_rep l (e1 ++ e2).
Proof.
  clear HM HW Ht; try clear junk; clear N. intros (_ & K1 & sl1 & P1 & R1) (_ & K2 & sl2 & P2 & R2) HS HL.
  destruct (@fl_merge_loop l2 sl2 R2 M 0 l1 sl1) as (l & sl & E & R & P); auto.
  { rewrite (Permutation_length P1). change (skipn 0 sl2) with sl2. rewrite (Permutation_length P2). exact HL. }
  exists l. split; [exact E|]. unfold FLeafProofs.fl_rep. splits; auto.
  - rewrite keys_app, Forall_app. auto.
  - exists sl. split; auto. rewrite P. now apply Permutation_app.
Qed.

(** ** Balancing, when slot 0 of both leaves is in use *)
Lemma fl_moves better lim : order better -> forall c i d r sd sr, fa_rep d sd -> fa_rep r sr -> NoDup (keys (somes sd)) ->
  (forall k, In k (keys (somes sd)) -> k = lim \/ better k lim = true) ->
  c < length (somes sd) -> length (somes sr) + c <= M ->
  exists d' r' sd' sr' mv, for_up i c (fun _ => fl_move fp M (fun l => do bs <- bm_list M M (fb l) 0; find_ext_bits better lim (fk l) bs M)) (d, r) = Ok (d', r') /\
    fa_rep d' sd' /\ fa_rep r' sr' /\ Permutation (somes sr') (somes sr ++ mv) /\ Permutation (somes sd' ++ mv) (somes sd) /\ length mv = c /\
    forall x y, In x (keys (somes sd')) -> In y (keys mv) -> better x y = false.
Proof.
  clear HM HW Ht; try clear junk; clear N.
  intros HO. induction c as [|c IH]; intros i d r sd sr Hd Hr ND HB HL HL2.
  - exists d, r, sd, sr, []. cbn [for_up keys map In length]. rewrite !app_nil_r. splits; auto. tauto.
  - destruct (@fl_ext_ok V fp M better lim d sd HO Hd) as (p & Ep & Cp).
    { intros E. rewrite E in HL. cbn [length] in HL. lia. }
    { exact HB. }
    destruct Cp as [(m & v & Em & Hbest)|[-> H0]].
    2:{ exfalso. destruct (somes sd) as [|[k w] [|[k' w'] rest]] eqn:Es; try (cbn [length] in HL; lia).
        assert (k = lim) by (apply H0; simpl; auto). assert (k' = lim) by (apply H0; simpl; auto). subst k k'.
        cbn [keys map fst] in ND. inversion ND as [|? ? NI _]. apply NI. simpl. auto. }
    cbn [for_up]. unfold fl_move at 1. rewrite Ep. cbn [bind].
    destruct (free_ok Hr) as (q & -> & Hq & H1 & H2). cbn [bind].
    assert (Hlt : q < M) by lia. specialize (H1 Hlt).
    pose proof Hd as (Ld & _ & _ & _ & _ & Cd). pose proof (Cd _ _ Em) as Cm. cbn [cell] in Cm. destruct Cm as (_ & -> & -> & _). cbn [bind].
    destruct (@fl_put_ok V fp M r sr q m v (fp m) Hr Hlt eq_refl) as (r1 & sr1 & E & Es & R1). rewrite E. cbn [bind].
    pose proof (nth_error_Some_lt Em) as Hp. rewrite Ld in Hp.
    destruct (fl_clear_ok Hd Hp) as (d1 & sd1 & Ec & _ & _ & _ & Esd & D1). rewrite Ec. cbn [bind].
    pose proof (somes_set H1 eq_refl Es) as PR. destruct (somes_unset Em Esd) as (a & b & Ea & Eb).
    assert (PX : Permutation ((m, v) :: somes sd1) (somes sd)) by (rewrite Ea, Eb; apply Permutation_middle).
    assert (ND' : NoDup (keys (somes sd1))).
    { apply perm_keys in PX. apply Permutation_sym in PX. apply (Permutation_NoDup PX) in ND.
      cbn [keys map fst] in ND. now inversion ND. }
    pose proof (Permutation_length PX) as LX. cbn [length] in LX.
    pose proof (Permutation_length PR) as LR. cbn [length] in LR.
    destruct (IH (S i) d1 r1 sd1 sr1) as (d' & r' & sd' & sr' & mv & EI & D' & R' & PR' & PM & LM & BM); auto; try lia.
    { intros k Hk. apply HB. apply (Permutation_in _ (perm_keys PX)). simpl. auto. }
    rewrite EI. exists d', r', sd', sr', ((m, v) :: mv). cbn [length]. splits; auto.
    + rewrite PR', PR. cbn [app]. apply Permutation_middle.
    + rewrite <- PX, <- PM. symmetry. apply Permutation_middle.
    + intros x y Hx [<-|Hy]; auto. cbn [fst]. apply Hbest.
      eapply Permutation_in; [apply perm_keys, PX|]. right.
      eapply Permutation_in; [apply perm_keys, PM|]. rewrite keys_app, in_app_iff. now left.
Qed.

Lemma fl_rep_sortl l sl : fa_rep l sl -> NoDup (keys (somes sl)) -> Forall (kt_in t) (keys (somes sl)) -> fl_rep l (sortl (somes sl)).
Proof.
  clear HM HW Ht; try clear junk; clear N. intros HR ND HF. pose proof (sortl_perm ND) as P. unfold FLeafProofs.fl_rep. splits.
  - apply sortl_sorted.
  - eapply Permutation_Forall; [apply Permutation_sym, perm_keys, P|exact HF].
  - exists sl. split; auto. now apply Permutation_sym.
Qed.

Lemma nodup_sep (a b : list Z) x : NoDup (a ++ b) -> In x a -> In x b -> False.
Proof.
  clear. induction a as [|z a IH]; intros ND Ha Hb; [contradiction|]. simpl in ND. inversion ND; subst.
  destruct Ha as [->|Ha]; [|auto]. apply H1. rewrite in_app_iff. auto.
Qed.

(** [d0] and [r0] are what slot 0 of the two leaves holds, in use or not. *)
Lemma fl_balance_left_ok dl rl ed er d0 r0 : fl_rep dl ed -> fl_rep rl er ->
  aget (fk dl) 0 = Ok d0 -> aget (fk rl) 0 = Ok r0 -> (d0 < r0)%Z ->
  sorted (ed ++ er) -> length er < length ed -> 1 < length ed ->
  exists d' r' e1 e2, fl_balance t fp M dl rl = Ok (d', r') /\ ed = e1 ++ e2 /\
    length e1 = (length ed + length er) / 2 /\ fl_rep d' e1 /\ fl_rep r' (e2 ++ er).
Proof.
  clear HM Ht; clear junk N.
  intros (Sd & Kd & sd & Pd & Rd) (Sr & Kr & sr & Pr & Rr) E0 E1 Lt HS HL H1.
  pose proof (Permutation_length Pd) as PLd. pose proof (Permutation_length Pr) as PLr.
  unfold fl_balance. rewrite (fl_count_ok HW Rd), (fl_count_ok HW Rr), PLd, PLr. set (bal := (length ed + length er) / 2).
  assert (Hbal : 2 * bal <= length ed + length er < 2 * bal + 2) by (unfold bal; lia).
  destruct (Nat.ltb_spec (length ed) bal) as [|_]; [lia|].
  destruct (Nat.eqb_spec (length ed - bal) 0) as [|_]; [lia|].
  rewrite E0, E1. cbn [bind]. apply sorted_app in HS as (_ & _ & SX).
  destruct (Z.ltb_spec d0 r0) as [_|]; [|lia].
  pose proof (somes_length sd) as LSd. pose proof Rd as (LLd & _).
  destruct (@fl_moves Z.gtb (kt_min t) order_gtb (length ed - bal) 0 dl rl sd sr) as (d' & r' & sd' & sr' & mv & E & D' & R' & PR' & PM & LM & BM); auto; try lia.
  { exact (ua_nodup Sd Pd). }
  { intros k Hk. apply kt_max_ext. rewrite Forall_forall in Kd. apply Kd. now apply (keys_perm_in k Pd). }
  assert (PM' : Permutation (somes sd' ++ mv) ed) by (now rewrite PM).
  pose proof (ua_nodup Sd PM') as ND. pose proof (nodup_parts ND) as [N1 N2].
  assert (CX : forall x y, In x (keys (somes sd')) -> In y (keys mv) -> (x < y)%Z).
  { intros x y Hx Hy. specialize (BM x y Hx Hy). destruct (Z.gtb_spec x y); [discriminate|].
    assert (x <> y); [|lia]. intros ->. rewrite keys_app in ND. eapply nodup_sep; eauto. }
  pose proof (perm_sort_app Sd PM' CX) as EE.
  pose proof (Permutation_Forall (Permutation_sym (perm_keys PM')) Kd) as KM. rewrite keys_app, Forall_app in KM. destruct KM as [KM1 KM2].
  pose proof (Permutation_length PM') as PLM. rewrite app_length in PLM.
  exists d', r', (sortl (somes sd')), (sortl mv). splits; auto.
  - rewrite sortl_length by assumption. lia.
  - now apply fl_rep_sortl.
  - unfold FLeafProofs.fl_rep. splits.
    + apply sorted_app. splits; auto; [apply sortl_sorted|]. intros x y Hx Hy. apply SX; auto.
      rewrite EE, keys_app, in_app_iff. auto.
    + rewrite keys_app, Forall_app. split; auto.
      eapply Permutation_Forall; [apply Permutation_sym, perm_keys, sortl_perm; auto|auto].
    + exists sr'. split; auto. rewrite PR', Permutation_app_comm. apply Permutation_app; auto.
      apply Permutation_sym. now apply sortl_perm.
Qed.

Lemma fl_balance_right_ok dl rl ed er d0 r0 : fl_rep dl ed -> fl_rep rl er ->
  aget (fk dl) 0 = Ok d0 -> aget (fk rl) 0 = Ok r0 -> (r0 <= d0)%Z ->
  sorted (er ++ ed) -> length er < length ed -> 1 < length ed ->
  exists d' r' e1 e2, fl_balance t fp M dl rl = Ok (d', r') /\ ed = e1 ++ e2 /\
    length e2 = (length ed + length er) / 2 /\ fl_rep d' e2 /\ fl_rep r' (er ++ e1).
Proof.
  clear HM Ht; clear junk N.
  intros (Sd & Kd & sd & Pd & Rd) (Sr & Kr & sr & Pr & Rr) E0 E1 Lt HS HL H1.
  pose proof (Permutation_length Pd) as PLd. pose proof (Permutation_length Pr) as PLr.
  unfold fl_balance. rewrite (fl_count_ok HW Rd), (fl_count_ok HW Rr), PLd, PLr. set (bal := (length ed + length er) / 2).
  assert (Hbal : 2 * bal <= length ed + length er < 2 * bal + 2) by (unfold bal; lia).
  destruct (Nat.ltb_spec (length ed) bal) as [|_]; [lia|].
  destruct (Nat.eqb_spec (length ed - bal) 0) as [|_]; [lia|].
  rewrite E0, E1. cbn [bind]. apply sorted_app in HS as (_ & _ & SX).
  destruct (Z.ltb_spec d0 r0) as [|_]; [lia|].
  pose proof (somes_length sd) as LSd. pose proof Rd as (LLd & _).
  destruct (@fl_moves Z.ltb (kt_max t) order_ltb (length ed - bal) 0 dl rl sd sr) as (d' & r' & sd' & sr' & mv & E & D' & R' & PR' & PM & LM & BM); auto; try lia.
  { exact (ua_nodup Sd Pd). }
  { intros k Hk. apply kt_min_ext. rewrite Forall_forall in Kd. apply Kd. now apply (keys_perm_in k Pd). }
  assert (PM' : Permutation (mv ++ somes sd') ed) by (now rewrite Permutation_app_comm, PM).
  pose proof (ua_nodup Sd PM') as ND. pose proof (nodup_parts ND) as [N1 N2].
  assert (CX : forall x y, In x (keys mv) -> In y (keys (somes sd')) -> (x < y)%Z).
  { intros x y Hx Hy. specialize (BM y x Hy Hx). apply Z.ltb_ge in BM.
    assert (x <> y); [|lia]. intros ->. rewrite keys_app in ND. eapply nodup_sep; eauto. }
  pose proof (perm_sort_app Sd PM' CX) as EE.
  pose proof (Permutation_Forall (Permutation_sym (perm_keys PM')) Kd) as KM. rewrite keys_app, Forall_app in KM. destruct KM as [KM1 KM2].
  pose proof (Permutation_length PM') as PLM. rewrite app_length in PLM.
  exists d', r', (sortl mv), (sortl (somes sd')). splits; auto.
  - rewrite sortl_length by assumption. lia.
  - now apply fl_rep_sortl.
  - unfold FLeafProofs.fl_rep. splits.
    + apply sorted_app. splits; auto; [apply sortl_sorted|]. intros x y Hx Hy. apply SX; auto.
      rewrite EE, keys_app, in_app_iff. auto.
    + rewrite keys_app, Forall_app. split; auto.
      eapply Permutation_Forall; [apply Permutation_sym, perm_keys, sortl_perm; auto|auto].
    + exists sr'. split; auto. rewrite PR'. apply Permutation_app; auto.
      apply Permutation_sym. now apply sortl_perm.
Qed.

(** ** Trees of one leaf *)
Lemma fl_insert_room l es k v : kt_in t k -> fl_rep l es -> length (ins k v es) <= M ->
  exists l', fl_insert t fp junk M l k v = Ok (LDone l') /\ fl_rep l' (ins k v es).
Proof.
  intros Kk HR HL. destruct (@fl_insert_ok V t fp junk M HM Ht l es k v Kk HR) as [(l' & E & R & _)|(l1 & l2 & s & e1 & e2 & E & _)]; [eauto|].
  exfalso. destruct HR as (HS & HK & sl & HP & HR). unfold fl_insert in E.
  destruct (fl_pos_ok k HR) as (r & Er & C). rewrite Er in E. cbn [bind] in E. destruct C as [[-> NI]|[Hr (w & Ew)]].
  - rewrite Nat.ltb_irrefl in E. destruct (free_ok HR) as (r & Ef & Hr & F1 & F2). rewrite Ef in E. cbn [bind] in E.
    assert (NIe : ~ In k (keys es)) by (intros HI; apply NI; now apply (keys_perm_in k HP)).
    rewrite length_ins_new in HL; [|exact HS|now apply get_none]. rewrite <- (Permutation_length HP) in HL.
    destruct (Nat.eqb_spec r M) as [EQ|_]; [specialize (F2 EQ); lia|].
    destruct (fl_insert_at fp M l r k v); discriminate.
  - destruct (Nat.ltb_spec r M); [|lia]. destruct (aset (fv l) r v); discriminate.
Qed.

Lemma small_run_f os : forall (tr : tree leaf) l es m, tdepth tr = 0 -> hl (th tr) (troot tr) = Some l ->
  fl_rep l es -> (forall k, get k es = m k) -> small_hist t M m os ->
  exists tr' l' es', t_run N M O tr (map bop_of os) = Ok tr' /\ tdepth tr' = 0 /\
    hl (th tr') (troot tr') = Some l' /\ fl_rep l' es' /\ forall k, get k es' = fold_left (@m_step V) os m k.
Proof.
  induction os as [|o os IH]; intros tr l es m D El HR HG HH.
  - exists tr, l, es. cbn [map t_run fold_left]. auto.
  - cbn [small_hist] in HH. destruct HH as (Ho & Hk & (out & HL & Hlen) & HH).
    pose proof HR as (HS & _). destruct o as [k v|k]; cbn [map bop_of t_run t_step fold_left].
    + assert (HG' : forall x, get x (ins k v es) = m_step m (OpInsert k v) x).
      { intros x. rewrite get_ins by assumption. cbn [m_step]. unfold m_put. destruct (x =? k)%Z; auto. }
      rewrite (lists_len (sorted_ins k v HS) HG' HL) in Hlen.
      destruct (fl_insert_room Hk HR Hlen) as (l' & E & HR').
      unfold t_insert. rewrite D. unfold insert_leaf, getl. rewrite El. cbn [of_opt bind].
      change (lo_insert O) with (@fl_insert V t fp junk M). rewrite E. cbn [bind].
      refine (IH _ l' _ _ _ _ HR' HG' HH); cbn [tdepth th troot set_leaf hl]; auto.
      unfold upd. now rewrite Nat.eqb_refl.
    + cbn [op_ok] in Ho. rewrite <- HG in Ho. destruct (fl_erase_ok HR Ho) as (l' & E & HR').
      unfold t_erase. rewrite D. unfold erase_leaf, getl. rewrite El. cbn [of_opt bind].
      change (lo_erase O) with (@fl_erase V fp M). rewrite E. cbn [bind fst snd].
      refine (IH _ l' _ _ _ _ HR' _ HH); cbn [tdepth th troot set_leaf hl fst]; auto.
      * unfold upd. now rewrite Nat.eqb_refl.
      * intros x. rewrite get_del by assumption. cbn [m_step]. unfold m_del. destruct (x =? k)%Z; auto.
Qed.

Lemma small_ok_f os : small_hist t M m_empty os ->
  exists tr, t_run N M O (t_new O) (map bop_of os) = Ok tr /\ forall k, t_lookup O tr k = Ok (m_run os k).
Proof.
  intros HH. pose proof (fl_laws V fp junk HM HW Ht) as LL.
  destruct (@small_run_f os (t_new O) (fl_new V junk M) [] m_empty) as (tr & l & es & E & D & El & HR & HG); auto.
  - exact (law_new LL).
  - exists tr. split; auto. intros k. unfold t_lookup. rewrite D. cbn [find_leaf bind]. unfold getl. rewrite El. cbn [of_opt bind].
    rewrite (law_lookup LL k HR). now rewrite HG.
Qed.
End FTree.
