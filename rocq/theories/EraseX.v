(** UnsortedPBPTree: an erase that does not meet [rm_ok] really damages the tree. *)
From Verif Require Import Base ArrLemmas MapSpec SortedList BTreeModel BTreeLaws BTreeBranch BTreeGhost BTreeSpec BTreeInsert EraseSpec BTreeErase
  BTreeHist BTreeMain EraseG RankModel FLeafProofs SLeafModel ULeafModel ULeafProofs UTreeProofs CutModel CutSpec CutProofs CutEProofs.
Open Scope nat_scope.

(** ** Branch operations see only the branch nodes *)
Section Hb.
Variables (L V : Type) (N : nat) (O : leafops L V).
Notation hp := (heap L).
Implicit Types h : hp.

Lemma getb_eq h h' i : hb h = hb h' -> getb h i = getb h' i.
Proof. unfold getb. now intros ->. Qed.

Lemma merge_branch_hb h h' a k b r : hb h = hb h' -> merge_branch h' a k b = Ok r -> exists r', merge_branch h a k b = Ok r' /\ hb r' = hb r.
Proof.
  intros E H. unfold merge_branch in *. rewrite !(getb_eq _ E). bnds H. injection H as <-. cbn [bind].
  repeat match goal with X : _ = Ok _ |- _ => rewrite X; clear X; cbn [bind] end. eexists. split; [reflexivity|]. cbn [set_branch hb]. now rewrite E.
Qed.
Lemma free_branch_hb h h' a r : hb h = hb h' -> free_branch h' a = Ok r -> exists r', free_branch h a = Ok r' /\ hb r' = hb r.
Proof.
  intros E H. unfold free_branch in *. rewrite !(getb_eq _ E). bnds H. injection H as <-. cbn [bind].
  eexists. split; [reflexivity|]. cbn [del_branch hb]. now rewrite E.
Qed.
Lemma remove_branch_child_hb h h' a p q r : hb h = hb h' -> remove_branch_child h' a p q = Ok r -> exists r', remove_branch_child h a p q = Ok r' /\ hb r' = hb r.
Proof.
  intros E H. unfold remove_branch_child in *. rewrite !(getb_eq _ E). bnds H. injection H as <-. cbn [bind].
  repeat match goal with X : _ = Ok _ |- _ => rewrite X; clear X; cbn [bind] end. eexists. split; [reflexivity|]. cbn [set_branch hb]. now rewrite E.
Qed.
Lemma remove_child_hb h h' a p q r : hb h = hb h' -> remove_child h' a p q = Ok r -> exists r', remove_child h a p q = Ok r' /\ hb r' = hb r.
Proof.
  intros E H. unfold remove_child in *. cbv zeta in *. rewrite !(getb_eq _ E). bnd H. cbn [bind]. bnd H. cbn [bind]. bnd H. injection H as <-. cbn [bind].
  eexists. split; [reflexivity|]. cbn [set_branch hb]. now rewrite E.
Qed.
Lemma remove_child_sl h a p q r : remove_child h a p q = Ok r -> sl h r.
Proof. unfold remove_child. cbv zeta. intros H. bnd H. bnd H. bnd H. injection H as <-. repeat split. Qed.
Lemma balance_branch_hb h h' a b p q r : hb h = hb h' -> balance_branch h' a b p q = Ok r -> exists r', balance_branch h a b p q = Ok r' /\ hb r' = hb r.
Proof.
  intros E H. unfold balance_branch in *. cbv zeta in *. rewrite !(getb_eq _ E).
  repeat (bnd H; cbn [bind]);
  injection H as <-; eexists; (split; [reflexivity|]); cbn [set_branch hb]; now rewrite ?E.
Qed.
Lemma underflow_branch_hb h h' id pos c r c' : hb h = hb h' -> underflow_branch N h' id pos c = Ok (r, c') ->
  exists r', underflow_branch N h id pos c = Ok (r', c') /\ hb r' = hb r.
Proof.
  intros E H. unfold underflow_branch in *. cbv zeta in *. rewrite (getb_eq id E). bnd H. cbn [bind].
  assert (E1 : forall i, getb h i = getb h' i) by (intros i; now apply getb_eq).
  replace (if 0 <? pos then do p <- aget (bc x) (pos - 1); do pb <- getb h p; Ok (bn pb) else Ok 0) with
    (if 0 <? pos then do p <- aget (bc x) (pos - 1); do pb <- getb h' p; Ok (bn pb) else Ok 0)
    by (destruct (0 <? pos); auto; destruct (aget (bc x) (pos - 1)); cbn [bind]; rewrite ?E1; auto).
  bnd H. cbn [bind]. bnd H.
  - bnd H. cbn [bind]. bnd H. injection H as <- <-. match goal with X : balance_branch _ _ _ _ _ = Ok _ |- _ => destruct (balance_branch_hb E X) as (r' & -> & Er) end.
    cbn [bind]. eauto.
  - replace (if pos <? bn x then do n <- aget (bc x) (pos + 1); do nb <- getb h n; Ok (bn nb) else Ok 0) with
      (if pos <? bn x then do n <- aget (bc x) (pos + 1); do nb <- getb h' n; Ok (bn nb) else Ok 0)
      by (destruct (pos <? bn x); auto; destruct (aget (bc x) (pos + 1)); cbn [bind]; rewrite ?E1; auto).
    bnd H. cbn [bind]. bnd H.
    + bnd H. cbn [bind]. bnd H. injection H as <- <-. match goal with X : balance_branch _ _ _ _ _ = Ok _ |- _ => destruct (balance_branch_hb E X) as (r' & -> & Er) end.
      cbn [bind]. eauto.
    + bnd H; [|bnd H; [|discriminate H]].
      * bnd H. cbn [bind]. bnd H. cbn [bind]. bnd H.
        match goal with X : merge_branch _ _ _ _ = Ok _ |- _ => destruct (merge_branch_hb E X) as (r1 & -> & F1) end. cbn [bind]. bnd H.
        match goal with X : free_branch _ _ = Ok _ |- _ => destruct (free_branch_hb F1 X) as (r2 & -> & F2) end. cbn [bind]. bnd H.
        match goal with X : remove_branch_child _ _ _ _ = Ok _ |- _ => destruct (remove_branch_child_hb F2 X) as (r3 & -> & F3) end. cbn [bind].
        injection H as <- <-. eauto.
      * bnd H. cbn [bind]. bnd H. cbn [bind]. bnd H.
        match goal with X : merge_branch _ _ _ _ = Ok _ |- _ => destruct (merge_branch_hb E X) as (r1 & -> & F1) end. cbn [bind]. bnd H.
        match goal with X : free_branch _ _ = Ok _ |- _ => destruct (free_branch_hb F1 X) as (r2 & -> & F2) end. cbn [bind]. bnd H.
        match goal with X : remove_branch_child _ _ _ _ = Ok _ |- _ => destruct (remove_branch_child_hb F2 X) as (r3 & -> & F3) end. cbn [bind].
        injection H as <- <-. eauto.
Qed.
Lemma find_leaf_hb h h' k d : hb h = hb h' -> forall id, find_leaf O h d id k = find_leaf O h' d id k.
Proof.
  intros E. induction d as [|d IH]; intros id; cbn [find_leaf]; [reflexivity|]. rewrite (getb_eq id E).
  destruct (getb h' id); cbn [bind]; auto. destruct (lo_bpos _ _ _ _); cbn [bind]; auto. destruct (aget _ _); cbn [bind]; auto.
Qed.
End Hb.

(** ** The erase compared with one that frees the right leaf *)
Section X.
Variables (L V : Type) (N M : nat) (O : leafops L V).
Definition nofree : leafops L V :=
  LeafOps (lo_new O) (lo_count O) (lo_lookup O) (lo_insert O) (lo_erase O) (lo_merge O) (lo_balance O) (lo_minkey O)
          (lo_scan O) (lo_range O) (lo_bpos O) false.
Hypothesis DA : lo_del_after O = true.

Lemma underflow_rel (t t1 : tree L) id c n nl n2 : underflow_leaf M nofree t id 0 c = Ok t1 -> hnx (th t) c = Some n -> getl (th t) n = Ok nl ->
  ((M + 1) / 2 <? lo_count O nl) = false -> hnx (th t) n = Some n2 ->
  exists t2, underflow_leaf M O t id 0 c = Ok t2 /\ hb (th t2) = hb (th t1) /\ troot t2 = troot t1 /\ tdepth t2 = tdepth t1 /\ hl (th t2) n2 = None /\
    hnx (th t1) c = Some n2 /\ forall i, i <> c -> hnx (th t1) i = hnx (th t) i.
Proof.
  intros H En El Ec En2. unfold underflow_leaf in *. cbv zeta in *. cbn [nofree lo_count lo_del_after] in *. change (0 <? 0) with false in *. cbn [andb] in *.
  change (balance_leaf nofree) with (balance_leaf O) in H. change (merge_leaf nofree) with (merge_leaf O) in H.
  bnd H. cbn [bind]. bnd H. cbn [bind] in *. rewrite En in *. cbn [of_opt bind] in *. rewrite El in *. cbn [bind] in *.
  destruct (0 <? bn x) eqn:Eb; cbn [bind andb] in *; [|discriminate H].
  rewrite Ec in *. bnd H. match goal with X : (if _ then _ else _) = Ok _ |- _ => rename X into E1 end.
  destruct (lo_count O nl <=? (M + 1) / 2) eqn:EL; [|discriminate E1].
  cbn [of_opt bind] in E1 |- *. bnd E1. match goal with X : merge_leaf _ _ _ _ = Ok ?y |- _ => rename X into EM; rename y into h1 end. cbn [bind] in *.
  rewrite DA. unfold merge_leaf in EM. bnd EM. bnd EM. bnd EM. cbv zeta in EM. rewrite En2 in EM. unfold set_pv_chk in EM. bnd EM. injection EM as <-.
  match goal with X : getl (set_nx _ _ _) n2 = Ok _ |- _ => rename X into EG end.
  set (h0 := set_pv _ _ _) in *.
  assert (HN1 : hnx h0 c = Some n2) by (subst h0; cbn [set_pv set_nx hnx]; apply upd_same').
  assert (HN2 : forall i, i <> c -> hnx h0 i = hnx (th t) i) by (intros i Hi; subst h0; cbn [set_pv set_nx hnx set_leaf]; unfold upd; destruct (Nat.eqb_spec i c); [contradiction|reflexivity]).
  assert (HG : exists y, getl h0 n2 = Ok y) by (eexists; exact EG). destruct HG as (y & HG).
  rewrite HN1. cbn [free_leaf] in *. rewrite HG. cbn [bind]. bnd E1. injection E1 as <-.
  match goal with X : (do _ <- getl h0 n; _) = Ok _ |- _ => bnd X; injection X as <- end.
  destruct (1 <? bn x).
  - bnd H. injection H as <-. match goal with X : remove_child _ _ _ _ = Ok ?y |- _ => rename X into ER; rename y into h3 end.
    destruct (@remove_child_hb L (del_leaf h0 n2) (del_leaf h0 n) id 0 c h3 eq_refl ER) as (h3' & EQ3 & F3). rewrite EQ3. cbn [bind].
    eexists. split; [reflexivity|]. cbn [th troot tdepth]. destruct (remove_child_sl EQ3) as (A1 & _). destruct (remove_child_sl ER) as (_ & A2 & _).
    splits; auto.
    + rewrite A1. cbn [del_leaf hl]. apply upd_same'.
    + rewrite A2. exact HN1.
    + intros i Hi. rewrite A2. cbn [del_leaf hnx]. auto.
  - injection H as <-. eexists. split; [reflexivity|]. cbn [th troot tdepth del_leaf hb hl hnx]. splits; auto.
    apply upd_same'.
Qed.

Lemma leaf_guard_S g (h : heap L) d id k : leaf_guard M O g h (S (S d)) id k =
  (do b <- getb h id; do pos <- lo_bpos O (bk b) (bn b) k; do c <- aget (bc b) pos; leaf_guard M O g h (S d) c k).
Proof. reflexivity. Qed.

Lemma erase_rel d : forall (t t1 : tree L) id k b, erase_branch N M nofree t (S d) id k = Ok (t1, b) -> leaf_guard M O (rm_ok M O) (th t) (S d) id k = Ok false ->
  exists t2 c n n2, erase_branch N M O t (S d) id k = Ok (t2, b) /\ hb (th t2) = hb (th t1) /\ troot t2 = troot t1 /\ tdepth t2 = tdepth t1 /\
    find_leaf O (th t) (S d) id k = Ok c /\ hnx (th t) c = Some n /\ hnx (th t) n = Some n2 /\ hl (th t2) n2 = None /\
    hnx (th t1) c = Some n2 /\ forall i, i <> c -> hnx (th t1) i = hnx (th t) i.
Proof.
  induction d as [|d IH]; intros t t1 id k b H G.
  - cbn [erase_branch leaf_guard find_leaf] in *. change (erase_leaf nofree) with (erase_leaf O) in H. cbn [nofree lo_bpos lo_count] in H.
    bnd H. cbn [bind] in *. bnd H. cbn [bind] in *. bnd H. cbn [bind] in *. bnd H.
    match goal with X : erase_leaf _ _ _ _ = Ok _ |- _ => rename X into EE end. cbn [bind] in *. destruct x2 as [del h1]. cbn [fst snd] in *.
    bnd H. cbn [bind] in *.
    destruct (lo_count O x2 <? (M + 1) / 2); [|discriminate G]. bnd H. injection H as <- <-.
    unfold rm_ok in G. destruct (Nat.ltb_spec 0 x0) as [HP|HP]; [discriminate G|]. assert (x0 = 0) as -> by lia.
    bnd G. bnd G. match goal with X : of_opt _ = Ok _ |- _ => rename X into EN end. unfold of_opt in EN. destruct (hnx h1 x1) as [n|] eqn:Hn; [|discriminate EN]. injection EN as ->.
    injection G as G. apply orb_false_elim in G as [G1 G2]. match type of G2 with match hnx h1 ?y with _ => _ end = _ => destruct (hnx h1 y) as [n2|] eqn:Hn2; [|discriminate G2]; rename y into nn end.
    assert (HX : hnx h1 = hnx (th t)) by (unfold erase_leaf in EE; bnd EE; bnd EE; injection EE as _ <-; reflexivity).
    match goal with X : underflow_leaf _ _ _ _ _ _ = Ok _ |- _ => rename X into EU end.
    match goal with X : getl h1 nn = Ok ?y |- _ => rename X into EN; rename y into nl end.
    destruct (@underflow_rel (Tree h1 (troot t) (tdepth t)) _ id x1 nn nl n2 EU Hn EN G1 Hn2) as (t2 & Eq2 & R1 & R2 & R3 & R4 & R5 & R6). rewrite Eq2. cbn [bind].
    exists t2, x1, nn, n2. rewrite <- HX. splits; auto.
  - rewrite leaf_guard_S in G. rewrite erase_branch_2 in H. cbn [nofree lo_bpos] in H. cbn [find_leaf]. rewrite erase_branch_2.
    bnd H. cbn [bind] in *. bnd H. cbn [bind] in *. bnd H. cbn [bind] in *. bnd H.
    match goal with X : erase_branch _ _ _ _ _ _ _ = Ok _ |- _ => rename X into EE end. destruct x2 as [ta del].
    destruct (IH _ _ _ _ _ EE G) as (t2 & c & n & n2 & Eq2 & B1 & B2 & B3 & F & R1 & R2 & R3 & R4 & R5). rewrite Eq2. cbn [bind].
    rewrite (@getb_eq L (th t2) (th ta) id B1). bnd H. cbn [bind]. bnd H. cbn [bind]. rewrite (@getb_eq L (th t2) (th ta) _ B1). bnd H. cbn [bind].
    destruct (_ <? _).
    + bnd H. destruct x5 as [h2 c']. match goal with X : underflow_branch _ _ _ _ _ = Ok _ |- _ => rename X into EU end.
      destruct (@underflow_branch_hb L N (th t2) (th ta) _ _ _ _ _ B1 EU) as (h2' & Eq3 & F3). rewrite Eq3. cbn [bind].
      rewrite (@getb_eq L h2' h2 id F3). bnd H. cbn [bind]. destruct (underflow_branch_sl Eq3) as (A1 & _). destruct (underflow_branch_sl EU) as (_ & A2 & _).
      rewrite B3. destruct ((S (S d) =? tdepth ta) && (bn _ =? 0)); injection H as <- <-; eexists; exists c, n, n2; (split; [reflexivity|]); cbn [th troot tdepth];
        splits; auto; try congruence; intros i Hi; rewrite A2; auto.
    + injection H as <- <-. exists t2, c, n, n2. splits; auto.
Qed.
End X.

(** ** The damaged tree *)
Section Damage.
Variables (L V : Type) (N M : nat) (O : leafops L V).
Variable lrep : L -> list (Z * V) -> Prop.
Variable lhint : L -> list (Z * V) -> Z -> Prop.
Variables minL minB : nat.
Variable kok : Z -> Prop.
Hypothesis LL : leaf_laws O M minL kok lrep.
Hypothesis EL : erase_core O M lrep lhint (fun _ _ _ => True).
Hypothesis DA : lo_del_after O = true.
Hypothesis HM : 1 <= M.
Hypothesis HmL : 1 <= minL.
Hypothesis HmM : minL <= (M + 1) / 2.
Hypothesis HN : 2 * ((N + 1) / 2) <= N.
Hypothesis HB : minB <= (N + 1) / 2 - 1.
Hypothesis HB2 : 2 <= minB.
Notation wf := (wf N M minL minB).
Notation inv := (inv N lrep).
Notation tinv := (tinv N M lrep minL minB).
Notation tinvf := (tinvf N M lrep minL minB).
Notation wf0_leaf := (@wf0_leaf V N M minL minB _ _ _ _).
Notation gt := (gt V).

Lemma nofree_laws : leaf_laws (nofree O) M minL kok lrep.
Proof. clear - LL. destruct LL. constructor; assumption. Qed.
Lemma nofree_erase : erase_laws (nofree O) M lrep lhint.
Proof. clear - EL. constructor; [|reflexivity]. destruct EL. constructor; assumption. Qed.

Lemma wf_leaf_ne d : forall m lo hi (g : gt), 1 <= m \/ 1 <= d -> wf m d lo hi g -> Forall (fun p => snd p <> []) (lvs [g]).
Proof.
  clear - HmL HB2. induction d as [|d IH]; intros m lo hi g Hm W.
  - destruct g as [i es|]; [|contradiction]. destruct W as (_ & _ & H). constructor; [|constructor]. cbn [snd]. intros ->. cbn [length] in H. lia.
  - destruct g as [|i ks cs]; [contradiction|]. destruct W as [_ K].
    assert (HF : Forall (fun c => exists x y, wf (mn minL minB d) d x y c) cs).
    { clear - K. revert lo cs K. induction ks as [|k0 ks IHk]; intros lo cs K; cbn [kids] in K.
      - destruct cs as [|c [|]]; try contradiction. destruct K as [_ K]. constructor; eauto.
      - destruct cs as [|c cs]; [contradiction|]. destruct K as (_ & K & K'). constructor; eauto. }
    rewrite Forall_forall in HF |- *. intros p Hp. unfold lvs in Hp. cbn in Hp. rewrite ?app_nil_r in Hp.
    apply in_flat_map in Hp as (c & Hc & Hp). destruct (HF c Hc) as (x & y & W).
    assert (Hm' : 1 <= mn minL minB d \/ 1 <= d) by (destruct d; cbn [mn]; lia). specialize (IH _ _ _ _ Hm' W). rewrite Forall_forall in IH. apply IH.
    unfold lvs. cbn. now rewrite app_nil_r.
Qed.

Lemma walk (h h1 : heap L) c n2 P : forall R p p1 ids, seg h p (P ++ c :: R) None -> ~ In c P -> (forall i, i <> c -> hnx h1 i = hnx h i) ->
  hnx h1 c = Some n2 -> seg h1 p1 ids None -> hd_error ids = hd_error (P ++ c :: R) -> In n2 ids.
Proof.
  clear. induction P as [|x P IH]; intros R p p1 ids S1 NI HX HC S2 HD; destruct ids as [|y ids]; try discriminate HD; cbn [app hd_error] in *; injection HD as ->.
  - cbn [seg] in S2. destruct S2 as (_ & S2 & _). rewrite HC in S2. destruct ids as [|z ids]; [discriminate S2|]. injection S2 as ->. right. now left.
  - cbn [seg] in S1, S2. destruct S1 as (_ & S1 & S1'). destruct S2 as (_ & S2 & S2'). right.
    eapply (IH R); [exact S1'|intros Hc; apply NI; now right|exact HX|exact HC|exact S2'|].
    rewrite HX in S2 by (intros ->; apply NI; now left). rewrite S1 in S2. destruct ids as [|z ids]; destruct P as [|w P]; cbn in S2 |- *; congruence.
Qed.

Lemma find_in d m (h : heap L) (g : gt) x i e : wf m d None None g -> inv h [] [g] [] -> In (i, e) (lvs [g]) -> In x (keys e) ->
  find_leaf O h d (gid g) x = Ok i.
Proof.
  clear EL DA HM HmL HmM HN HB HB2 lhint.
  intros W I Hi Hx. destruct (@find_leaf_ok L V N M O lrep minL minB kok LL d m h [] g [] None None x W I) as (LA & j & es & LB & E & EV & H1 & H2); [split; exact Logic.I|].
  rewrite E. f_equal. rewrite EV in Hi. apply in_app_or in Hi as [Hi|[Hi|Hi]].
  - rewrite alt_in in H1. assert (In x (keys (flat_map snd LA))).
    { unfold keys in *. apply in_map_iff in Hx as (q & <- & Hq). apply in_map. apply in_flat_map. eauto. }
    specialize (H1 x H). lia.
  - congruence.
  - rewrite agt_in in H2. assert (In x (keys (flat_map snd LB))).
    { unfold keys in *. apply in_map_iff in Hx as (q & <- & Hq). apply in_map. apply in_flat_map. eauto. }
    specialize (H2 x H). lia.
Qed.

Lemma damage_from r f t t1 es k : tinvf f t es -> leaf_guard M O (rm_ok M O) (th t) (tdepth t) (troot t) k = Ok false ->
  t_erase N M (nofree O) t k = Ok (t1, r) -> tinvf f t1 (del k es) ->
  exists t2 x, t_erase N M O t k = Ok (t2, r) /\ x <> k /\ get x es <> None /\ t_lookup O t2 x = UB.
Proof.
  clear EL HN lhint. intros If GF E1 I1. pose proof (tinv_sorted (tinvf_tinv If)) as HS.
  unfold t_erase in *. destruct (tdepth t) as [|d] eqn:ED; [discriminate GF|].
  destruct (erase_rel DA E1 GF) as (t2 & c & n & n2 & E2 & B1 & B2 & B3 & F & R1 & R2 & R3 & R4 & R5).
  destruct If as (g & Eg & W & Iv & Ee & Hf). destruct I1 as (g1 & Eg1 & W1 & Iv1 & Ee1 & Hf1).
  pose proof (inv_seg Iv) as SG. pose proof (inv_seg Iv1) as SG1. cbn [app] in SG, SG1. rewrite app_nil_r in SG, SG1.
  pose proof (inv_nd Iv) as ND. cbn [app] in ND. rewrite app_nil_r in ND.
  rewrite ED in W.
  destruct (@find_leaf_ok L V N M O lrep minL minB kok LL _ _ (th t) [] g [] None None k W Iv) as (LA & j & ec & LB & Ej & EV & _ & _); [split; exact Logic.I|].
  rewrite Eg, F in Ej. injection Ej as <-.
  assert (EI : lids [g] = map fst LA ++ c :: map fst LB) by (unfold lids; rewrite EV, map_app; reflexivity).
  rewrite EI in SG, ND, Hf.
  assert (NI : ~ In c (map fst LA)) by (apply NoDup_remove_2 in ND; rewrite in_app_iff in ND; tauto).
  assert (HI2 : In n2 (lids [g1])).
  { eapply walk; [exact SG|exact NI|exact R5|exact R4|exact SG1|]. now rewrite Hf1, Hf. }
  (* n2 is not the first leaf *)
  assert (NF : n2 <> f).
  { rewrite seg_app in SG. destruct SG as [_ SG]. cbn [seg] in SG. destruct SG as (_ & SG & SG'). rewrite R1 in SG.
    destruct (map fst LB) as [|z r0]; [discriminate SG|]. injection SG as <-. cbn [seg] in SG'. destruct SG' as (_ & SG & _). rewrite R2 in SG.
    destruct r0 as [|z r0]; [discriminate SG|]. injection SG as <-. intros ->.
    destruct (map fst LA) as [|y A]; cbn [app hd_error] in Hf; injection Hf as ->.
    - inversion ND as [|? ? X _]; subst. apply X. right. now left.
    - cbn [app] in ND. inversion ND as [|? ? X _]; subst. apply X. rewrite in_app_iff. right. right. right. now left. }
  assert (D1 : 1 <= tdepth t1).
  { destruct (tdepth t1) as [|d1]; [|lia]. exfalso. destruct g1 as [i e|]; [|contradiction]. cbn in Hf1, HI2. injection Hf1 as ->. destruct HI2 as [->|[]]. now apply NF. }
  unfold lids in HI2. apply in_map_iff in HI2 as ([i e2] & Ei & HI2). cbn [fst] in Ei. subst i.
  pose proof (wf_leaf_ne (or_intror D1) W1) as NE. rewrite Forall_forall in NE. specialize (NE _ HI2). cbn [snd] in NE.
  destruct e2 as [|[x v] e2]; [congruence|].
  exists t2, x. split; [exact E2|].
  assert (HX : get x (del k es) <> None).
  { rewrite <- Ee1. intros Hn. apply get_none in Hn; [|rewrite Ee1; apply sorted_del; exact HS]. apply Hn. unfold ents, keys. apply in_map_iff. exists (x, v). split; auto. apply in_flat_map. exists (n2, (x, v) :: e2). split; auto. now left. }
  rewrite get_del in HX by exact HS. destruct (Z.eqb_spec x k) as [->|NX]; [congruence|]. splits; auto.
  pose proof (@find_in _ _ (th t1) g1 x n2 _ W1 Iv1 HI2 ltac:(cbn [keys map fst In]; auto)) as FI.
  unfold t_lookup. rewrite B2, B3, <- Eg1, (@find_leaf_hb L V O (th t2) (th t1) x _ B1), FI. cbn [bind]. unfold getl. now rewrite R3.
Qed.

Lemma erase_damage t es k : tinv t es -> get k es <> None -> leaf_guard M O (rm_ok M O) (th t) (tdepth t) (troot t) k = Ok false ->
  exists t2 x, t_erase N M O t k = Ok (t2, true) /\ x <> k /\ get x es <> None /\ t_lookup O t2 x = UB.
Proof.
  intros I HG GF. destruct (tinv_tinvf I) as (f & If).
  destruct (@t_erase_okf L V N M (nofree O) lrep lhint minL minB kok nofree_laws nofree_erase HM HmM HN HB HB2 f t es k If HG) as (t1 & E1 & I1).
  eapply damage_from; eauto.
Qed.

(** ** The condition is always decided *)
Lemma guard_decw r d : forall (h : heap L) A i ks cs B m lo hi k,
  wf m (S d) lo hi (GB i ks cs) -> inb lo hi k -> inv h A [GB i ks cs] B ->
  (forall j l es, find_leaf O h (S d) i k = Ok j -> hl h j = Some l -> lrep l es -> sorted es -> get k es = get k (ents cs) ->
    exists l', lo_erase O l k = Ok (r, l') /\ lhint l' (del k es) k) -> 1 <= length ks ->
  exists b, leaf_guard M O (rm_ok M O) h (S d) i k = Ok b.
Proof.
  clear HN.
  induction d as [|d IH]; intros h A i ks cs B m lo hi k HW Hk HI HG H1.
  - destruct HW as [HC HK]. cbn [mn] in HK.
    apply inv_GB in HI as (HI & Hfi & Hni & (b & Eb & Hb)). cbn [fst snd] in *.
    destruct (route HK Hk) as (a & bb & CA & c & CB & -> & -> & LA & LB & Ha & Hbb & KL & Rc & Bc & KR & Hkc).
    destruct (kids_sorted HK) as [HS _].
    destruct (wf0_leaf Rc) as (j & es & -> & Ss & Fs & Cs).
    change (CA ++ GL j es :: CB) with (CA ++ [GL j es] ++ CB) in *.
    pose proof (inv_sub HI) as HIc.
    destruct (ctx_ents (@wf_okc V N M minL minB minL 0) KL KR Hkc) as [HA HBB].
    destruct (inv_GL HIc) as (l & El & Hl & _).
    pose proof (@bpos_ok L V N M O lrep minL kok LL b a bb _ k Hb HS Ha Hbb) as EP.
    assert (EC : aget (bc b) (length a) = Ok j) by (rewrite (@kid_at V N b _ CA (GL j es) CB (length a) Hb) by auto; reflexivity).
    assert (EG : getb h i = Ok b) by (unfold getb; now rewrite Eb).
    destruct (HG j l es) as (l' & EE & Hh); auto.
    { cbn [find_leaf]. rewrite EG. cbn [bind]. rewrite EP. cbn [bind]. now rewrite EC. }
    { now rewrite !ents_app, ents_GL, get_app_lt, get_app_gt by assumption. }
    cbn [leaf_guard]. rewrite EG. cbn [bind]. rewrite EP. cbn [bind]. rewrite EC. cbn [bind].
    unfold erase_leaf, getl at 1. rewrite El. cbn [of_opt bind]. rewrite EE. cbn [bind fst snd].
    unfold getl. cbn [set_leaf hl]. unfold upd. rewrite Nat.eqb_refl. cbn [of_opt bind].
    destruct (_ <? _); [|eauto]. unfold rm_ok. destruct (Nat.ltb_spec 0 (length a)) as [_|H0]; [eauto|].
    destruct a as [|y a]; [|cbn [length] in H0; lia]. destruct CA as [|]; [|discriminate LA].
    destruct bb as [|y bb]; [cbn [app length] in H1; lia|]. destruct CB as [|g CB]; [discriminate LB|].
    destruct KR as (_ & Wg & _). destruct (wf0_leaf Wg) as (j2 & e2 & -> & _).
    cbn [app] in HI. change (GL j es :: GL j2 e2 :: CB) with ([] ++ [GL j es; GL j2 e2] ++ CB) in HI. apply inv_sub in HI.
    destruct (inv_pair HI) as (l1 & l2 & _ & _ & Hl2 & _ & NE & _ & _ & _ & _ & _ & _ & _ & _ & _ & NX & _).
    cbn [set_leaf hnx]. rewrite NX. cbn [of_opt bind]. unfold getl.
    cbn [hl set_leaf]. unfold upd. destruct (Nat.eqb_spec j2 j) as [->|_]; [congruence|]. rewrite Hl2. cbn [of_opt bind]. eauto.
  - destruct HW as [HC HK]. cbn [mn] in HK.
    apply inv_GB in HI as (HI & Hfi & Hni & (b & Eb & Hb)). cbn [fst snd] in *.
    destruct (route HK Hk) as (a & bb & CA & c & CB & -> & -> & LA & LB & Ha & Hbb & KL & Rc & Bc & KR & Hkc).
    destruct (kids_sorted HK) as [HS _].
    destruct (wfS_branch Rc) as (j & kc & cc & -> & Cc & Kc).
    change (CA ++ GB j kc cc :: CB) with (CA ++ [GB j kc cc] ++ CB) in *.
    pose proof (inv_sub HI) as HIc.
    destruct (ctx_ents (@wf_okc V N M minL minB minB (S d)) KL KR Hkc) as [HA HBB].
    pose proof (@bpos_ok L V N M O lrep minL kok LL b a bb _ k Hb HS Ha Hbb) as EP.
    assert (EC : aget (bc b) (length a) = Ok j) by (rewrite (@kid_at V N b _ CA (GB j kc cc) CB (length a) Hb) by auto; reflexivity).
    assert (EG : getb h i = Ok b) by (unfold getb; now rewrite Eb).
    rewrite leaf_guard_S. rewrite EG. cbn [bind]. rewrite EP. cbn [bind]. rewrite EC. cbn [bind].
    eapply IH; eauto; [|lia].
    intros j' l es EF El Hl Sl E. apply (HG j' l es); auto.
    + change (find_leaf O h (S (S d)) i k) with (do b <- getb h i; do pos <- lo_bpos O (bk b) (bn b) k; do c <- aget (bc b) pos; find_leaf O h (S d) c k).
      rewrite EG. cbn [bind]. rewrite EP. cbn [bind]. now rewrite EC.
    + now rewrite !ents_app, ents_GB, get_app_lt, get_app_gt by assumption.
Qed.

Lemma t_guard_decw r t es k : tinv t es ->
  (forall j l es', find_leaf O (th t) (tdepth t) (troot t) k = Ok j -> hl (th t) j = Some l -> lrep l es' -> sorted es' -> get k es' = get k es ->
    exists l', lo_erase O l k = Ok (r, l') /\ lhint l' (del k es') k) ->
  exists b, leaf_guard M O (rm_ok M O) (th t) (tdepth t) (troot t) k = Ok b.
Proof.
  clear HN. intros (g & Eg & W & I & <-) HG. destruct (tdepth t) as [|d]; [exists true; reflexivity|].
  destruct (wfS_branch W) as (j & ks & cs & -> & Cs & KK). rewrite ents_GB in *. cbn [gid rmin] in *. rewrite <- Eg in *.
  eapply (@guard_decw r); eauto; try lia. split; exact Logic.I.
Qed.

Lemma t_guard_dec t es k : tinv t es -> get k es <> None -> exists b, leaf_guard M O (rm_ok M O) (th t) (tdepth t) (troot t) k = Ok b.
Proof.
  clear HN. intros I HG. apply (@t_guard_decw true t es k I). intros j l es' _ _ Hl _ E. apply (law_erase EL Hl). now rewrite E.
Qed.
End Damage.

(** ** UnsortedPBPTree *)
Section UExact.
Variables (V : Type) (t : ktype) (N M : nat).
Hypothesis HM : 2 <= M.
Hypothesis Ht : (1 <= kt_bits t <= 64)%Z.
Hypothesis HN : 6 <= N.
Hypothesis HE : Nat.even N = true.
Notation O := (un_ops V t M).

Lemma un_exact os : hist_ok m_empty os -> Forall (op_in (kt_in t)) os -> fine N M O (rm_ok M O) (t_new O) (map bop_of os) = true ->
  exists tr, t_run N M O (t_new O) (map bop_of os) = Ok tr /\
    forall k, m_run os k <> None -> exists b tr',
      leaf_guard M O (rm_ok M O) (th tr) (tdepth tr) (troot tr) k = Ok b /\ t_erase N M O tr k = Ok (tr', true) /\
      if b then forall x, t_lookup O tr' x = Ok (m_del (m_run os) k x)
      else exists x, x <> k /\ m_run os x <> None /\ t_lookup O tr' x = UB.
Proof.
  intros F FK FF. destruct (even_half HE) as [H1 H2].
  destruct (@hist_guard_new _ _ N M O _ _ _ (M / 2) (N / 2 - 1) _ (ul_laws V HM Ht) (ul_core V t M) ltac:(lia) ltac:(lia) ltac:(lia) ltac:(lia) ltac:(lia)
    _ (@rm_good _ _ M O (fun _ _ _ => True) (fun _ _ _ => Logic.I)) os (or_introl F) FK FF) as (tr & es & E & I & G).
  exists tr. split; auto. intros k Hk. rewrite <- G in Hk.
  destruct (@t_guard_dec _ _ N M O _ _ (M / 2) (N / 2 - 1) _ (ul_laws V HM Ht) (ul_core V t M) ltac:(lia) ltac:(lia) ltac:(lia) ltac:(lia) ltac:(lia) tr es k I Hk) as (b & Eb).
  destruct b.
  - destruct (un_guarded HM Ht HN HE F FK FF) as (tr1 & out & R1 & _ & _ & _ & _ & _ & R7). rewrite E in R1. injection R1 as <-.
    rewrite G in Hk. destruct (R7 k Hk Eb) as (tr' & E1 & HL). exists true, tr'. auto.
  - destruct (@erase_damage _ _ N M O _ _ (M / 2) (N / 2 - 1) _ (ul_laws V HM Ht) (ul_core V t M) eq_refl ltac:(lia) ltac:(lia) ltac:(lia) ltac:(lia) ltac:(lia) ltac:(lia)
      tr es k I Hk Eb) as (t2 & x & E1 & X1 & X2 & X3). exists false, t2. splits; auto. exists x. rewrite <- G. auto.
Qed.
End UExact.
