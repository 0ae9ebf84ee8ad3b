(** woPSkiplist: whole insert histories. *)
From Verif Require Import Base ArrLemmas MapSpec SortedList SearchModel RankModel BitmapModel BitmapProofs PopcountProofs ULeafModel ULeafProofs
  SlotLemmas FLeafModel FLeafProofs SkipSpec SkipProofs SkipMain WoModel WoNode WoProofs WoInsert.
From Coq Require Import Permutation.
Open Scope nat_scope.

Section WoM.
Variables (V : Type) (t : ktype) (N M : nat).
Hypothesis HN : 2 <= N.
Hypothesis HM : 2 <= M.
Hypothesis Ht : (1 <= kt_bits t <= 64)%Z.
Notation winv := (@winv V t N M).
Implicit Types (s : wlist V).

Lemma new_ok r : r < M -> exists s ch, w_new V t N M r = Ok s /\ winv s [1] [[]] ch /\
  nc (wnodes s) 0 = Some (w_cell0 V N (kt_min t) (kt_min t)).
Proof.
  intros Hr. unfold w_new. set (h := w_level r). assert (Hh : 1 <= h < M) by (unfold h, w_level; destruct (Nat.eqb_spec r 0); lia).
  assert (UP : forall n lo (f : list (option nat)), lo + n <= length f -> exists f', for_up lo n (fun i f => of_opt (lset f i (Some 1))) f = Ok f' /\ length f' = length f /\
    forall i, nth_error f' i = if (lo <=? i) && (i <? lo + n) then Some (Some 1) else nth_error f i).
  { induction n as [|n IH]; intros lo f L; cbn [for_up].
    - exists f. splits; auto. intros i. destruct (Nat.leb_spec lo i); destruct (Nat.ltb_spec i (lo + 0)); cbn; lia || reflexivity.
    - destruct (@lset_some _ f lo (Some 1)) as (f1 & E); [lia|]. rewrite E. cbn [bind of_opt].
      destruct (IH (S lo) f1) as (f' & E' & L' & N'); [rewrite (lset_length E); lia|]. exists f'. splits; [assumption|rewrite L'; apply (lset_length E)|].
      intros i. rewrite N', (lset_nth i E).
      destruct (Nat.leb_spec (S lo) i); destruct (Nat.ltb_spec i (S lo + n)); destruct (Nat.leb_spec lo i); destruct (Nat.ltb_spec i (lo + S n));
        destruct (Nat.eqb_spec i lo); cbn; lia || reflexivity. }
  destruct (UP h 0 (repeat None M)) as (f & Ef & Lf & Nf); [rewrite repeat_length; lia|]. rewrite repeat_length in Lf. rewrite Ef. cbn [bind].
  assert (NR : forall i, i < M -> nth_error (repeat (@None nat) M) i = Some None) by (intros i Hi; now apply nth_error_repeat).
  eexists. exists (fun i => if i <? h then [1] else []). split; [reflexivity|]. split; [|reflexivity]. constructor; cbn [wnodes wheight].
  - repeat constructor; cbn; [assumption|apply repeat_length].
  - repeat constructor. exists (w_empty V t N). split; [reflexivity|]. unfold crep. splits; try constructor; cbn; auto.
    exists (repeat None N). rewrite somes_none. split; [constructor|apply w_empty_rep].
  - discriminate.
  - constructor.
  - constructor.
  - repeat constructor; cbn; intuition lia.
  - left. reflexivity.
  - intros i Hi. unfold nfw, wfwd_at, wnode_at. specialize (Nf i). cbn [Nat.leb andb] in Nf. rewrite Nat.add_0_l in Nf. destruct (i <? h); cbn.
    + rewrite Nf, NR by assumption. auto.
    + rewrite Nf, NR by assumption. reflexivity.
  - destruct (Nat.ltb_spec 0 h); [reflexivity|lia].
  - intros i. destruct (Nat.ltb_spec (S i) h), (Nat.ltb_spec i h); try lia; intros y Hy; auto. destruct Hy.
  - intros i. destruct (i <? h); repeat constructor. intros [].
  - lia.
Qed.

Definition okop (o : Z * V * nat) : Prop := kt_in t (fst (fst o)) /\ (0 <= fst (fst o))%Z /\ snd o < M.

Lemma run_ok os : forall s ids bl ch, winv s ids bl ch -> Forall okop os ->
  exists s' ids' bl' ch', w_run t N M s os = Ok s' /\ winv s' ids' bl' ch' /\
    forall x, get x (concat bl') = fold_left (@m_step V) (map (fun o => OpInsert (fst (fst o)) (snd (fst o))) os) (fun k => get k (concat bl)) x.
Proof.
  induction os as [|[[k v] r] os IH]; intros s ids bl ch I F; cbn [w_run].
  - exists s, ids, bl, ch. auto.
  - inversion F as [|? ? (K1 & K2 & K3) F']; subst. cbn [fst snd] in *.
    destruct (@insert_stores_ok V t N M HN Ht s ids bl ch k v r I HM K3 (conj K1 K2)) as (b & p & E & _ & (s1 & ids1 & bl1 & ch1 & E1 & I1 & C1) & _).
    unfold w_insert. rewrite E. cbn [bind fst snd]. rewrite E1. cbn [bind fst].
    destruct (IH s1 ids1 bl1 ch1 I1 F') as (s' & ids' & bl' & ch' & E' & I' & G). exists s', ids', bl', ch'. splits; auto.
    intros x. rewrite G. cbn [map fold_left m_step fst snd]. apply fold_ext. intros y. rewrite C1, get_ins by exact (w_srt I). reflexivity.
Qed.

Lemma build_ok r0 os : r0 < M -> Forall okop os -> exists s0 s ids bl ch, w_new V t N M r0 = Ok s0 /\ w_run t N M s0 os = Ok s /\ winv s ids bl ch /\
  forall x, get x (concat bl) = puts os x.
Proof.
  intros Hr F. destruct (new_ok Hr) as (s0 & ch0 & E0 & I0 & _). destruct (run_ok I0 F) as (s & ids & bl & ch & E & I & G).
  exists s0, s, ids, bl, ch. splits; auto. 
Qed.

Theorem wo_map r0 os : r0 < M -> Forall okop os ->
  exists s, (do s0 <- w_new V t N M r0; w_run t N M s0 os) = Ok s /\ (forall k, w_search N s k = Ok (puts os k)) /\
    forall k v r, okop (k, v, r) -> exists s' b, w_insert t N M s k v r = Ok (s', b) /\ (b = true <-> puts os k = None).
Proof.
  intros Hr F. destruct (build_ok Hr F) as (s0 & s & ids & bl & ch & E0 & E & I & G). exists s. rewrite E0. cbn [bind]. splits; auto.
  - intros k. now rewrite (w_search_ok I), G.
  - intros k v r (K1 & K2 & K3). cbn [fst snd] in *.
    destruct (@insert_stores_ok V t N M HN Ht s ids bl ch k v r I HM K3 (conj K1 K2)) as (b & p & Ep & Hb & (s1 & ids1 & bl1 & ch1 & E1 & _) & _).
    unfold w_insert. rewrite Ep. cbn [bind fst snd]. rewrite E1. cbn [bind]. exists s1, b. split; [reflexivity|]. now rewrite Hb, G.
Qed.

(** A power failure outside the middle of a split. *)
Theorem wo_crash r0 os s : r0 < M -> Forall okop os -> (do s0 <- w_new V t N M r0; w_run t N M s0 os) = Ok s ->
  forall k v r, okop (k, v, r) -> exists b p, w_insert_stores t N M s k v r = Ok (b, p) /\
    forall n, (forall x, ~ In (WAlloc x) p) \/ n <= 1 \/ 6 <= n ->
    exists s', w_crash t N M s k v r n = Ok s' /\
      ((forall x, kt_in t x -> w_search N s' x = w_search N s x) \/
       (forall x, kt_in t x -> w_search N s' x = if (x =? k)%Z then Ok (Some v) else w_search N s x)).
Proof.
  intros Hr F ES k v r (K1 & K2 & K3). cbn [fst snd] in *. destruct (build_ok Hr F) as (s0 & s1 & ids & bl & ch & E0 & E & I & G).
  rewrite E0 in ES. cbn [bind] in ES. rewrite E in ES. injection ES as ->.
  destruct (@insert_stores_ok V t N M HN Ht s ids bl ch k v r I HM K3 (conj K1 K2)) as (b & p & Ep & _ & _ & HP).
  exists b, p. split; [assumption|]. intros n Hn. unfold w_crash. rewrite Ep. cbn [bind snd]. apply HP. assumption.
Qed.

(** ** Printing the bottom level *)
Hypothesis HW : (BinNat.N.of_nat N < W)%N.

Lemma print_node_ok (c : wcell V) (sl : list (option (Z * V))) : wa_rep N c sl -> w_print_node N c = Ok (wmin c, wmax c, BinNat.N.of_nat (length (somes sl)), keys (somes sl)).
Proof.
  intros HR. pose proof HR as (HL & HB & _ & _ & HC). unfold w_print_node.
  assert (X : forall sl2 sl1 : list (option (Z * V)), sl = sl1 ++ sl2 ->
    for_up (length sl1) (length sl2) (fun i out => do b <- bm_test N (wb c) i; if (b : bool) then do k <- aget (wk c) i; Ok (out ++ [k]) else Ok out) (keys (somes sl1)) = Ok (keys (somes sl) : list Z)).
  { induction sl2 as [|o sl2 IH]; intros sl1 ->; cbn [length for_up].
    - now rewrite app_nil_r.
    - assert (EO : nth_error (sl1 ++ o :: sl2) (length sl1) = Some o) by (rewrite nth_error_app2, Nat.sub_diag by lia; reflexivity).
      pose proof (nth_error_Some_lt EO) as Hi. rewrite HL in Hi. specialize (HC _ _ EO).
      specialize (IH (sl1 ++ [o])). rewrite <- app_assoc in IH. specialize (IH eq_refl). rewrite app_length in IH. cbn [length] in IH. rewrite Nat.add_1_r in IH.
      rewrite bm_test_ok by auto. cbn [bind]. destruct o as [[k v]|]; unfold at_slot in HC.
      + destruct HC as (-> & -> & _). cbn [bind]. rewrite <- IH. f_equal. rewrite somes_app, keys_app. reflexivity.
      + rewrite HC. cbn [bind]. rewrite <- IH. f_equal. rewrite somes_app. cbn [somes]. now rewrite app_nil_r. }
  specialize (X sl [] eq_refl). cbn [length somes keys map] in X. rewrite HL in X. rewrite X. cbn [bind]. do 3 f_equal.
  rewrite (bm_count_ok HW HB). f_equal. exact (@cnt_somes _ (fun _ => 0%Z) N (tl N c) sl N 0 (to_fa HR) eq_refl).
Qed.

(** One printed row for one block. *)
Definition row_of (e : list (Z * V)) (r : Z * Z * BinNums.N * list Z) : Prop :=
  exists ks, r = (minl t e, maxl t e, BinNat.N.of_nat (length ks), ks) /\ Permutation ks (keys e) /\ length ks <= N /\ Forall (kt_in t) ks.

Lemma print_level_ok s : forall ids bl a fuel, Forall2 (@holds V t N (wnodes s)) ids bl -> (forall b, In b ids -> exists x, nth_error (wnodes s) b = Some x) ->
  wchain (nfw (wnodes s) 0) a ids -> length ids <= fuel -> forall o, nfw (wnodes s) 0 a = Ok o ->
  exists rows, w_print_level N fuel (wnodes s) 0 o = Ok rows /\ Forall2 row_of bl rows.
Proof.
  induction ids as [|b ids IH]; intros bl a fuel F H C L o Eo; cbn [wchain] in C.
  - rewrite C in Eo. injection Eo as <-. inversion F; subst. exists []. split; [now destruct fuel|constructor].
  - destruct C as [C1 C2]. rewrite C1 in Eo. injection Eo as <-. apply f2_cons in F as (e & m & -> & (c & Ec & R) & F).
    cbn [length] in L. destruct fuel as [|fuel]; [lia|]. cbn [w_print_level]. destruct (nc_some Ec) as (x & Ex & Hx). unfold wnode_at. rewrite Ex. cbn [bind of_opt]. rewrite Hx.
    pose proof R as (RS & RK & (sl & RP & RR) & Rmn & Rmx). rewrite (print_node_ok RR). cbn [bind].
    assert (exists o, nth_error (wfwd x) 0 = Some o /\ nfw (wnodes s) 0 b = Ok o) as (o & Eo & En).
    { assert (exists o, nfw (wnodes s) 0 b = Ok o) as (o & En) by (destruct ids; cbn in C2; [eauto|destruct C2; eauto]).
      exists o. split; [|assumption]. unfold nfw, wfwd_at, wnode_at in En. rewrite Ex in En. cbn [bind of_opt] in En. destruct (nth_error (wfwd x) 0); [|discriminate]. cbn in En. congruence. }
    rewrite Eo. cbn [bind of_opt]. destruct (IH m b fuel F (fun y Hy => H y (or_intror Hy)) C2) with (o := o) as (rows & Er & FR); [lia|assumption|].
    rewrite Er. cbn [bind]. eexists. split; [reflexivity|]. constructor; [|assumption]. exists (keys (somes sl)). rewrite Rmn, Rmx, keys_length. splits; [reflexivity|now apply perm_keys| |].
    + destruct RR as (L1 & _). rewrite <- L1. apply somes_length.
    + eapply Permutation_Forall; [symmetry; apply perm_keys; exact RP|exact RK].
Qed.

Lemma wchain_ok s i : forall ids a, wchain (nfw (wnodes s) i) a ids -> exists o, nfw (wnodes s) i a = Ok o.
Proof. destruct ids; cbn [wchain]; intros a H; [eauto|destruct H; eauto]. Qed.

Lemma puts_nil (os : list (Z * V * nat)) : (forall x, puts os x = None) -> os = [].
Proof.
  destruct os as [|o os] using rev_ind; [auto|]. intros H. specialize (H (fst (fst o))). rewrite puts_snoc in H. unfold m_put in H. rewrite Z.eqb_refl in H. discriminate.
Qed.

Theorem wo_print r0 os s : r0 < M -> Forall okop os -> (do s0 <- w_new V t N M r0; w_run t N M s0 os) = Ok s ->
  exists rows, w_print_row N s 0 = Ok rows /\
    Forall (fun '(mn, mx, n, ks) => n = BinNat.N.of_nat (length ks) /\ length ks <= N /\ NoDup ks /\
       (ks = [] -> os = []) /\ (ks <> [] -> In mn ks /\ In mx ks /\ Forall (fun x => mn <= x <= mx)%Z ks)) rows /\
    StronglySorted (fun a b => forall x y, In x (snd a) -> In y (snd b) -> (x < y)%Z) rows /\
    forall k, (exists r, In r rows /\ In k (snd r)) <-> puts os k <> None.
Proof.
  intros Hr F ES. destruct (build_ok Hr F) as (s0 & s1 & ids & bl & ch & E0 & E & I & G).
  rewrite E0 in ES. cbn [bind] in ES. rewrite E in ES. injection ES as ->.
  pose proof (w_chain I (i := 0) ltac:(lia)) as C. rewrite (w_ch0 I) in C. destruct (wchain_ok C) as (o & Eo).
  assert (LI : length ids <= length (wnodes s)).
  { pose proof (w_nd I) as ND. apply NoDup_cons_iff in ND as [_ ND]. rewrite <- (seq_length (length (wnodes s)) 0). apply NoDup_incl_length; [assumption|].
    intros b Hb. destruct (Forall2_in_l (w_blk I) Hb) as (? & ? & ? & ? & ? & _ & _ & _ & (c & Ec & _) & _). destruct (nc_some Ec) as (xx & Ex & _). apply nth_error_Some_lt in Ex. apply in_seq. lia. }
  destruct (@print_level_ok s ids bl 0 (length (wnodes s)) (w_blk I)) with (o := o) as (rows & Er & FR); auto.
  { intros b Hb. destruct (Forall2_in_l (w_blk I) Hb) as (? & ? & ? & ? & ? & _ & _ & _ & (c & Ec & _) & _). destruct (nc_some Ec) as (xx & Ex & _). eauto. }
  exists rows. splits.
  - unfold w_print_row. unfold nfw, wfwd_at in Eo. destruct (wnode_at (wnodes s) 0) as [h| |]; try discriminate. cbn [bind] in *. rewrite Eo. cbn [bind]. exact Er.
  - assert (X : Forall (fun e => sorted e /\ (e = [] -> os = [])) bl).
    { apply Forall_forall. intros e He. split.
      - pose proof (w_srt I) as S. apply in_split in He as (b1 & b2 & ->). rewrite concat_app in S. cbn [concat] in S. apply sorted_app in S as (_ & S & _). now apply sorted_app in S as (S & _).
      - intros ->. destruct (w_shape I) as [L|FN]; [|rewrite Forall_forall in FN; now destruct (FN _ He)].
        destruct bl as [|e1 [|? ?]]; cbn in L; try lia. destruct He as [->|[]]. cbn in G. apply puts_nil. intros x. now rewrite <- G. }
    clear -FR X. induction FR as [|e r bl rows R FR IH]; [constructor|]. inversion X as [|? ? (S & X0) X']; subst. constructor; [|auto].
    destruct R as (ks & -> & P & L & K). splits; [reflexivity|assumption| | |].
    + eapply Permutation_NoDup; [symmetry; exact P|]. now apply ssorted_NoDup.
    + intros ->. apply Permutation_nil in P. apply X0. destruct e; [reflexivity|discriminate].
    + intros NE. assert (e <> []) by (intros ->; apply NE; apply Permutation_nil; now symmetry).
      assert (K' : Forall (kt_in t) (keys e)) by (eapply Permutation_Forall; eassumption).
      splits; [apply (Permutation_in _ (Permutation_sym P)); now apply minl_in|apply (Permutation_in _ (Permutation_sym P)); now apply maxl_in|].
      apply Forall_forall. intros x Hx. apply (Permutation_in _ P) in Hx. split; [now apply minl_le|now apply maxl_ge].
  - pose proof (w_srt I) as S. clear -FR S. revert S. induction FR as [|e r bl rows R FR IH]; intros S; [constructor|]. cbn [concat] in S. apply sorted_app in S as (_ & S & LT).
    constructor; [now apply IH|]. apply Forall_forall. intros r' Hr x y Hx Hy. apply LT.
    + destruct R as (ks & -> & P & _). now apply (Permutation_in _ P).
    + clear -FR Hr Hy. induction FR as [|e1 r1 bl rows R FR IH]; [destruct Hr|]. cbn [concat]. rewrite keys_app. apply in_or_app. destruct Hr as [->|Hr]; [left|right; auto].
      destruct R as (ks & -> & P & _). now apply (Permutation_in _ P).
  - intros k. rewrite <- G. transitivity (In k (keys (concat bl))).
    + clear -FR. induction FR as [|e r bl rows R FR IH].
      * split; [intros (? & [] & _)|intros []].
      * cbn [concat]. rewrite keys_app, in_app_iff, <- IH. destruct R as (ks & -> & P & _). split.
        -- intros (r' & [<-|H] & K); [left; now apply (Permutation_in _ P)|right; eauto].
        -- intros [K|(r' & H & K)]; [eexists; split; [left; reflexivity|]; cbn [snd]; now apply (Permutation_in _ (Permutation_sym P))|exists r'; split; [now right|assumption]].
    + split.
      * intros H. unfold keys in H. apply in_map_iff in H as ([x v] & <- & H). apply (get_in _ _ (w_srt I)) in H. cbn [fst]. congruence.
      * destruct (get k (concat bl)) as [v|] eqn:GE; [|congruence]. intros _. apply (get_in _ _ (w_srt I)) in GE. unfold keys. apply in_map_iff. now exists (k, v).
Qed.
End WoM.
