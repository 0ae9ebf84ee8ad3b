(** Leaf splits: the stores are those of the modelled functions; prefixes for leaves with a counter. *)
From Verif Require Import Base RankModel BitmapModel BitmapProofs BTreeModel SearchModel SLeafModel ULeafModel FLeafModel SlotLemmas FLeafProofs
  CrashModel CrashSpec CrashProofs CrashEProofs CrashSModel CrashSSpec CrashSProofs.
Open Scope nat_scope.

Lemma link_all {V L} (step : L -> store V -> res L) kat vat fat hasNext (st : sstate L) :
  exists st', x_exec step kat vat fat st (link_stores hasNext) = Ok st' /\ snode st' = snode st /\ ssib st' = ssib st /\ nnext st' = Some Sib /\
    snext st' = if hasNext then nnext st else snext st.
Proof. unfold link_stores. destruct hasNext; cbn [app x_exec x_step bind]; eexists; (split; [reflexivity|]); auto. Qed.

Lemma lset_same {A} (l : list A) : forall i x, nth_error l i = Some x -> lset l i x = Some l.
Proof.
  induction l as [|a l IH]; intros [|i] x H; cbn [nth_error lset] in *; try discriminate.
  - congruence.
  - now rewrite IH.
Qed.

(** * Bitmap leaves *)
Section Fp.
Variables (V : Type) (t : ktype) (M : nat).
Notation FX := (fx_exec M).

Lemma f_moves_exec fpt c s : forall n keys i j (node sib : fleaf V) nn ns node' sib' j',
  length keys = n -> (forall m k, nth_error keys m = Some k -> aget (fk node) (i + m) = Ok k) ->
  (fpt = false -> (forall x h, lget (ff node) x = Ok h -> h = c) /\ (forall x h, lget (ff sib) x = Ok h -> h = c)) ->
  for_up i n (fl_split_step M s) (node, sib, j) = Ok (node', sib', j') ->
  FX (SState node sib nn ns) (moves V fpt keys s i j) = Ok (SState node' sib' nn ns).
Proof.
  induction n as [|n IH]; intros keys i j node sib nn ns node' sib' j' L HK HC E; destruct keys as [|k0 r]; try discriminate.
  - cbn [for_up] in E. injection E as <- <- <-. reflexivity.
  - cbn [for_up] in E. cbn [moves]. cbn [length] in L. unfold fl_split_step in E at 1.
    pose proof (HK 0 k0 eq_refl) as E0. rewrite Nat.add_0_r in E0. rewrite E0 in E. cbn [bind] in E.
    assert (HK' : forall m k, nth_error r m = Some k -> aget (fk node) (S i + m) = Ok k).
    { intros m k H. rewrite <- (HK (S m) k H). now rewrite <- plus_n_Sm. }
    destruct (k0 >=? s)%Z.
    2:{ eapply IH; eauto. }
    destruct (aget (fv node) i) as [v| |] eqn:Ev; try discriminate. cbn [bind] in E.
    destruct (lget (ff node) i) as [h| |] eqn:Eh; try discriminate. cbn [bind] in E. unfold fl_put in E.
    destruct (aset (fk sib) j k0) as [ks| |] eqn:EK; try discriminate. cbn [bind] in E.
    destruct (aset (fv sib) j v) as [vs| |] eqn:EV; try discriminate. cbn [bind] in E.
    destruct (bm_set M (fb sib) j true) as [b| |] eqn:EB; try discriminate. cbn [bind] in E.
    destruct (lset (ff sib) j h) as [f|] eqn:EF; try discriminate. cbn [of_opt bind] in E. unfold fl_clear in E.
    destruct (bm_reset M (fb node) i) as [b'| |] eqn:EB'; try discriminate. cbn [bind] in E.
    assert (X : FX (SState node sib nn ns) (move_stores V fpt i j) = Ok (SState (FLeaf b' (ff node) (fk node) (fv node)) (FLeaf b f ks vs) nn ns)).
    { unfold fx_exec, move_stores. cbn [app x_exec x_step snode ssib nnext snext]. rewrite E0. cbn [bind f_step]. rewrite EK. cbn [bind snode ssib nnext snext].
      rewrite Ev. cbn [bind f_step fb ff fk fv]. rewrite EV. cbn [bind]. destruct fpt; cbn [app x_exec x_step snode ssib nnext snext].
      - rewrite Eh. cbn [bind f_step fb ff fk fv]. rewrite EF. cbn [of_opt bind f_step fb ff fk fv snode ssib nnext snext]. rewrite EB. cbn [bind f_step snode ssib nnext snext].
        rewrite EB'. reflexivity.
      - destruct (HC eq_refl) as (C1 & C2). cbn [f_step fb ff fk fv]. rewrite EB. cbn [bind f_step snode ssib nnext snext]. rewrite EB'. cbn [bind].
        assert (h = c) by eauto. subst h.
        assert (f = ff sib); [|subst f; reflexivity].
        destruct (nth_error (ff sib) j) as [x|] eqn:Ex.
        + assert (x = c) by (apply (C2 j); unfold lget; now rewrite Ex). subst x. rewrite (lset_same Ex) in EF. congruence.
        + exfalso. apply nth_error_None in Ex. pose proof (lset_length EF). assert (length (ff sib) <= j) by auto.
          clear -EF H0. revert j f EF H0. induction (ff sib) as [|a l IHl]; intros [|j] f EF H; cbn [lset length] in *; try discriminate; try lia.
          destruct (lset l j c) eqn:X; [|discriminate]. eapply IHl; eauto. lia. }
    unfold fx_exec in *. rewrite x_exec_app, X. cbn [bind]. eapply IH; eauto.
    intros T. destruct (HC T) as (C1 & C2). split; [exact C1|]. cbn [ff]. intros x h0 H. unfold lget in H. rewrite (lset_nth x EF) in H.
    destruct (x =? j); [cbn [of_opt] in H; injection H as <-; eauto|]. eapply C2. unfold lget. exact H.
Qed.

Lemma f_split_exec fpt fp junk (l : fleaf V) hasNext p a b s :
  (fpt = false -> forall i, junk i = fp 0%Z) -> (fpt = false -> forall x h, lget (ff l) x = Ok h -> h = fp 0%Z) ->
  fl_split_stores t M fpt l hasNext = Ok p -> fl_split t junk M l = Ok (a, b, s) ->
  exists st, FX (x_init l (fl_new V junk M) hasNext) p = Ok st /\ snode st = a /\ ssib st = b /\ nnext st = Some Sib.
Proof.
  intros HJ HC Ep Es. unfold fl_split_stores in Ep. unfold fl_split in Es.
  destruct (read_all M 0 (fk l)) as [data| |] eqn:ED; try discriminate. cbn [bind] in *.
  destruct (findSplitKey t data) as [[bs sp]| |]; try discriminate. cbn [bind snd] in *.
  destruct (aget (fk l) sp) as [s0| |]; try discriminate. cbn [bind] in *. injection Ep as <-.
  destruct (for_up 0 M (fl_split_step M s0) (l, fl_new V junk M, 0)) as [[[x y] z]| |] eqn:EF; try discriminate. cbn [bind fst snd] in Es. injection Es as <- <- <-.
  destruct (read_all_nth ED) as (LD & HD).
  unfold x_init. unfold fx_exec. rewrite x_exec_app.
  pose proof (@f_moves_exec fpt (fp 0%Z) s0 M data 0 0 l (fl_new V junk M) (if hasNext then Some Rest else None) None x y z LD HD) as X. unfold fx_exec in X.
  rewrite X; auto.
  - cbn [bind]. destruct (@link_all V (fleaf V) (@f_step V M) (fun l => aget (fk l)) (fun l => aget (fv l)) (fun l => lget (ff l)) hasNext
      (SState x y (if hasNext then Some Rest else None) None)) as (st & E & A & B & C & _). exists st. auto.
  - intros T. split; [exact (HC T)|]. intros i h H. unfold fl_new, lget in H. cbn [ff] in H. unfold of_opt in H.
    rewrite nth_error_map in H. destruct (nth_error (seq 0 M) i) as [m|]; cbn [option_map] in H; [|discriminate]. injection H as <-. now apply HJ.
Qed.
End Fp.

(** * Sorted leaves *)
Section Sorted.
Variables (V : Type) (M : nat).
Notation SX := (@sx_exec V).

Lemma half_prefix middle : forall n i (node sib : sleaf V) nn ns, length (sk sib) = M -> length (sv sib) = M -> i + n <= M ->
  (forall x, i <= x < i + n -> exists k v, aget (sk node) (x + middle) = Ok k /\ aget (sv node) (x + middle) = Ok v) -> forall q, exists ks vs,
  SX (SState node sib nn ns) (firstn q (half_stores V n i middle)) = Ok (SState node (SLeaf (sn sib) ks vs) nn ns) /\
  length ks = M /\ length vs = M /\
  (forall x, aget ks x = if (i <=? x) && (x <? i + Nat.min n ((q + 1) / 2)) then aget (sk node) (x + middle) else aget (sk sib) x) /\
  (forall x, aget vs x = if (i <=? x) && (x <? i + Nat.min n (q / 2)) then aget (sv node) (x + middle) else aget (sv sib) x).
Proof.
  assert (NO : forall lo i, (lo <=? i) && (i <? lo + 0) = false).
  { intros lo i. destruct (Nat.leb_spec lo i), (Nat.ltb_spec i (lo + 0)); cbn [andb]; auto; lia. }
  induction n as [|n IH]; intros i node sib nn ns LK LV HM HF q; cbn [half_stores].
  - rewrite firstn_nil. unfold sx_exec. cbn [x_exec]. exists (sk sib), (sv sib). cbn [Nat.min]. split; [now destruct sib|]. splits; auto; intros x; now rewrite NO.
  - destruct (HF i) as (k & v & Ek & Ev); [lia|].
    destruct q as [|q].
    { unfold sx_exec. cbn [firstn x_exec]. exists (sk sib), (sv sib). split; [now destruct sib|]. change ((0 + 1) / 2) with 0. change (0 / 2) with 0. rewrite Nat.min_0_r.
      splits; auto; intros x; now rewrite NO. }
    destruct (@aset_ok _ (sk sib) i k) as (ks & EK); [lia|]. destruct (@aset_ok _ (sv sib) i v) as (vs & EV); [lia|].
    unfold sx_exec. cbn [firstn x_exec x_step snode ssib nnext snext]. rewrite Ek. cbn [bind s_step]. rewrite EK. cbn [bind].
    destruct q as [|q].
    { cbn [firstn x_exec]. exists ks, (sv sib). split; [reflexivity|]. change ((1 + 1) / 2) with 1. change (1 / 2) with 0. rewrite Nat.min_0_r.
      splits; auto; [now rewrite (aset_length EK)| |]; intros x; [|now rewrite NO]. rewrite (aget_aset x EK).
      destruct (Nat.eqb_spec x i), (Nat.leb_spec i x), (Nat.ltb_spec x (i + Nat.min (S n) 1)); cbn [andb]; try lia; auto. now subst x. }
    cbn [firstn x_exec x_step snode ssib nnext snext]. rewrite Ev. cbn [bind s_step sn sk sv]. rewrite EV. cbn [bind].
    destruct (IH (S i) node (SLeaf (sn sib) ks vs) nn ns) with (q := q) as (ks' & vs' & E & L1 & L2 & GK & GV); cbn [sn sk sv];
      [now rewrite (aset_length EK)|now rewrite (aset_length EV)|lia|intros; apply HF; lia|].
    cbn [sn sk sv] in *. exists ks', vs'. split; [exact E|]. splits; auto; intros x.
    + rewrite GK, (aget_aset x EK). replace ((S (S q) + 1) / 2) with (S ((q + 1) / 2)) by lia.
      destruct (Nat.eqb_spec x i), (Nat.leb_spec (S i) x), (Nat.leb_spec i x),
        (Nat.ltb_spec x (S i + Nat.min n ((q + 1) / 2))), (Nat.ltb_spec x (i + Nat.min (S n) (S ((q + 1) / 2)))); cbn [andb]; try lia; auto.
      now subst x.
    + rewrite GV, (aget_aset x EV). replace (S (S q) / 2) with (S (q / 2)) by lia.
      destruct (Nat.eqb_spec x i), (Nat.leb_spec (S i) x), (Nat.leb_spec i x),
        (Nat.ltb_spec x (S i + Nat.min n (q / 2))), (Nat.ltb_spec x (i + Nat.min (S n) (S (q / 2)))); cbn [andb]; try lia; auto.
      now subst x.
Qed.
Lemma half_length middle : forall n i, length (half_stores V n i middle) = 2 * n.
Proof. induction n as [|n IH]; intros i; cbn [half_stores length]; [reflexivity|]. rewrite IH. lia. Qed.

Lemma s_split_prefix (l : sleaf V) hasNext : 2 <= M -> s_ok M l -> sn l = M -> forall n, exists st,
  SX (x_init l (sl_new V M) hasNext) (firstn n (sl_split_stores M l hasNext)) = Ok st /\
  shared (@s_slots V) (s_slots l) st /\ (hasNext = true -> rest_listed st) /\
  (nnext st = Some Sib -> apart (@s_slots V) st) /\
  ((forall k v, has (s_slots l) k v -> reaches (@s_slots V) st k v) <->
   n < length (sl_split_stores M l hasNext) - length (@link_stores V hasNext) \/ length (sl_split_stores M l hasNext) - 2 < n).
Proof.
  intros HM W HN n. pose proof (s_ok_wf W) as (_ & _ & _ & _ & U). destruct W as (_ & LK & LV & HF & _).
  unfold sl_split_stores. set (mid := (M + 1) / 2). set (s := sn l - mid). assert (Hm : mid + s = M /\ 0 < s /\ 0 < mid /\ s <= mid) by (unfold s, mid; lia).
  clearbody mid s. set (nn := if hasNext then Some Rest else None).
  assert (LL : length (@link_stores V hasNext) = (if hasNext then 4 else 2)) by now destruct hasNext.
  cbn [length]. rewrite !app_length, !half_length. cbn [length].
  replace (S (2 * s + S (length (@link_stores V hasNext))) - length (@link_stores V hasNext)) with (2 + 2 * s) by lia.
  set (new0 := SLeaf s (anew M) (anew M) : sleaf V).
  assert (LA : forall A, length (@anew A M) = M) by (intros; unfold anew; apply repeat_length).
  assert (NA : forall A x, @aget A (anew M) x = UB).
  { intros A x. unfold aget, anew. destruct (nth_error (repeat None M) x) as [[y|]|] eqn:E; auto. apply nth_error_In, repeat_spec in E. discriminate. }
  destruct (@half_prefix mid s 0 l new0 nn None) with (q := n - 1) as (ks & vs & EH & L1 & L2 & GK & GV); [exact (LA _)|exact (LA _)|lia| |].
  { intros x Hx. destruct (HF (x + mid)) as (k & v & -> & ->); [lia|]. eauto. }
  unfold new0 in GK, GV, EH. cbn [sk sv sn] in GK, GV, EH.
  assert (SIB : forall x, s_slots (SLeaf s ks vs) x = if x <? Nat.min s ((n - 1) / 2) then s_slots l (x + mid) else None).
  { intros x. unfold s_slots. cbn [sn sk sv]. rewrite GK, GV, !NA.
    assert (Nat.min s ((n - 1) / 2) <= Nat.min s ((n - 1 + 1) / 2)) by lia.
    destruct (Nat.ltb_spec x s), (Nat.ltb_spec x (Nat.min s ((n - 1) / 2))), (Nat.ltb_spec (x + mid) (sn l)), (Nat.leb_spec 0 x),
      (Nat.ltb_spec x (0 + Nat.min s ((n - 1 + 1) / 2))), (Nat.ltb_spec x (0 + Nat.min s ((n - 1) / 2))); cbn [andb]; try lia; auto.
    destruct (aget (sk l) (x + mid)); reflexivity. }
  assert (SUB : forall k v, has (s_slots (SLeaf s ks vs)) k v -> has (s_slots l) k v).
  { intros k v (x & Hx). rewrite SIB in Hx. destruct (x <? Nat.min s ((n - 1) / 2)); [|discriminate]. eexists; eauto. }
  destruct n as [|n].
  { cbn [firstn]. unfold sx_exec. cbn [x_exec]. eexists. split; [reflexivity|]. unfold shared, rest_listed, apart, reaches, x_init. cbn [snode ssib nnext snext].
    assert (NS : forall k v, ~ has (s_slots (sl_new V M)) k v).
    { intros k v (x & Hx). unfold s_slots, sl_new in Hx. cbn [sn] in Hx. destruct (Nat.ltb_spec x 0); [lia|discriminate]. }
    splits.
    - intros k v. split; [auto|]. intros [H|H]; [auto|destruct (NS _ _ H)].
    - intros ->. auto.
    - intros H k v w _ H'. destruct (NS _ _ H').
    - split; [intros _; left; lia|auto]. }
  cbn [firstn]. unfold sx_exec in *. cbn [x_exec x_step x_init snode ssib nnext snext s_step sn sk sv bind sl_new].
  replace (S n - 1) with n in * by lia.
  rewrite firstn_app, half_length, x_exec_app. fold nn. rewrite EH. cbn [bind].
  destruct (Nat.le_gt_cases n (2 * s)) as [Hn|Hn].
  - replace (n - 2 * s) with 0 by lia. cbn [firstn x_exec]. eexists. split; [reflexivity|].
    unfold shared, rest_listed, apart, reaches. cbn [snode ssib nnext snext]. splits.
    + intros k v. split; [auto|]. intros [H|H]; auto.
    + unfold nn. intros ->. auto.
    + unfold nn. destruct hasNext; discriminate.
    + split; [intros _; left; lia|auto].
  - rewrite (Nat.min_l s (n / 2)) in SIB by lia.
    set (node' := SLeaf mid (sk l) (sv l)).
    assert (NOD : forall x, s_slots node' x = if x <? mid then s_slots l x else None).
    { intros x. unfold s_slots, node'. cbn [sn sk sv]. destruct (Nat.ltb_spec x mid), (Nat.ltb_spec x (sn l)); try lia; auto. }
    assert (SH : forall k v, has (s_slots l) k v <-> has (s_slots node') k v \/ has (s_slots (SLeaf s ks vs)) k v).
    { intros k v. split.
      - intros (x & Hx). pose proof (s_slots_live Hx) as (Lx & _). destruct (Nat.lt_ge_cases x mid).
        + left. exists x. rewrite NOD. destruct (Nat.ltb_spec x mid); [auto|lia].
        + right. exists (x - mid). rewrite SIB. replace (x - mid + mid) with x by lia. destruct (Nat.ltb_spec (x - mid) s); [auto|lia].
      - intros [(x & Hx)|H]; [|auto]. rewrite NOD in Hx. destruct (x <? mid); [eexists; eauto|discriminate]. }
    assert (AP : forall k v w, has (s_slots node') k v -> has (s_slots (SLeaf s ks vs)) k w -> False).
    { intros k v w (x & Hx) (y & Hy). rewrite NOD in Hx. destruct (Nat.ltb_spec x mid); [|discriminate].
      rewrite SIB in Hy. destruct (Nat.ltb_spec y s); [|discriminate]. assert (x = y + mid) by (eapply U; eauto). lia. }
    destruct (n - 2 * s) as [|m] eqn:Em; [lia|]. cbn [firstn x_exec x_step snode ssib nnext snext s_step bind]. fold node'.
    destruct (@link_prefix V (sleaf V) (@s_step V) (fun l => aget (sk l)) (fun l => aget (sv l)) (fun _ _ => UB) hasNext
      (SState node' (SLeaf s ks vs) nn None) m eq_refl eq_refl) as (st & E & SN & SB & K1 & K2 & RL). cbn [snode ssib] in SN, SB.
    exists st. split; [exact E|]. unfold shared, apart, reaches. rewrite SN, SB. splits; auto.
    + split.
      * intros ALL. right. destruct (Nat.lt_ge_cases (S (2 * s + S (length (@link_stores V hasNext))) - 2) (S n)) as [|Hn2]; [auto|exfalso].
        destruct (HF mid) as (k & v & Ek & Ev); [lia|]. assert (X : s_slots l mid = Some (k, v)) by (apply s_slots_at; auto; lia).
        destruct (ALL k v) as [(x & Hx)|[H _]]; [exists mid; auto| |].
        -- rewrite NOD in Hx. destruct (Nat.ltb_spec x mid); [|discriminate]. assert (x = mid) by (eapply U; eauto). lia.
        -- revert H. apply K2. rewrite LL in *. destruct hasNext; lia.
      * intros [H|H] k v Hk; [lia|]. apply SH in Hk as [Hk|Hk]; [auto|right]. split; [|auto]. apply K1. rewrite LL in *. destruct hasNext; lia.
Qed.

Lemma half_exec middle : forall n i (node sib : sleaf V) nn ns,
  SX (SState node sib nn ns) (half_stores V n i middle) =
  (do kv <- for_up i n (fun i kv => do ks <- (do x <- aget (sk node) (i + middle); aset (fst kv) i x);
                                    do vs <- (do x <- aget (sv node) (i + middle); aset (snd kv) i x);
                                    Ok (ks, vs)) (sk sib, sv sib);
   Ok (SState node (SLeaf (sn sib) (fst kv) (snd kv)) nn ns)).
Proof.
  induction n as [|n IH]; intros i node sib nn ns; unfold sx_exec; cbn [half_stores for_up x_exec x_step bind fst snd snode ssib nnext snext s_step].
  - now destruct sib.
  - destruct (aget (sk node) (i + middle)) as [x| |]; cbn [bind]; try reflexivity.
    destruct (aset (sk sib) i x) as [ks| |]; cbn [bind sk sv sn snode ssib nnext snext]; try reflexivity.
    destruct (aget (sv node) (i + middle)) as [y| |]; cbn [bind]; try reflexivity.
    destruct (aset (sv sib) i y) as [vs| |]; cbn [bind]; try reflexivity. exact (IH (S i) node (SLeaf (sn sib) ks vs) nn ns).
Qed.
Lemma s_split_exec (l : sleaf V) hasNext : (M + 1) / 2 <= sn l ->
  (do st <- SX (x_init l (sl_new V M) hasNext) (sl_split_stores M l hasNext); Ok (snode st, ssib st)) = sl_split M l.
Proof.
  intros H. unfold sl_split, sl_split_stores. destruct (Nat.ltb_spec (sn l) ((M + 1) / 2)); [lia|].
  unfold sx_exec. cbn [x_exec x_step x_init snode ssib nnext snext s_step sn sk sv bind sl_new]. rewrite x_exec_app.
  pose proof (@half_exec ((M + 1) / 2) (sn l - (M + 1) / 2) 0 l (SLeaf (sn l - (M + 1) / 2) (anew M) (anew M)) (if hasNext then Some Rest else None) None) as X.
  unfold sx_exec in X. rewrite X. cbn [sk sv sn].
  destruct (for_up 0 (sn l - (M + 1) / 2) _ (anew M, anew M)) as [[ks vs]| |]; cbn [bind]; try reflexivity.
  cbn [x_exec x_step snode ssib nnext snext s_step bind fst snd].
  destruct (@link_all V (sleaf V) (@s_step V) (fun l => aget (sk l)) (fun l => aget (sv l)) (fun _ _ => UB) hasNext
    (SState (SLeaf ((M + 1) / 2) (sk l) (sv l)) (SLeaf (sn l - (M + 1) / 2) ks vs) (if hasNext then Some Rest else None) None)) as (st & -> & A & B & _).
  cbn [bind]. now rewrite A, B.
Qed.
End Sorted.
