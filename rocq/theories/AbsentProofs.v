(** Erase of a key that is not stored does what the erase of the key before it does, if it does anything. *)
From Verif Require Import Base ArrLemmas MapSpec SortedList SearchModel SearchProofs BTreeModel BTreeSpec BTreeLaws BTreeBranch BTreeGhost
  BTreeInsert EraseSpec PathSpec BTreeErase BTreeHist BTreeMain CutEProofs SLeafModel SLeafProofs PathProofs AbsentSpec.
Open Scope nat_scope.

Lemma ale_ctx lo (a : list Z) p : ssorted a -> lob (lb lo a) p -> ale p a.
Proof.
  intros HS H. apply ale_in. intros x Hx. destruct (rev_case a) as [->|(a0 & z & ->)]; [contradiction|]. rewrite lb_snoc in H. cbn [lob] in H.
  apply ssorted_app in HS as (_ & _ & HS). apply in_app_or in Hx as [Hx|[->|[]]]; [|lia]. specialize (HS x z Hx ltac:(simpl; auto)). lia.
Qed.
Lemma agt_ctx hi (b : list Z) p : ssorted b -> hib (hbd b hi) p -> agt p b.
Proof.
  intros HS H. apply agt_in. intros x Hx. destruct b as [|z b]; [contradiction|]. unfold hbd in H. simpl in H. destruct Hx as [->|Hx]; [exact H|].
  apply ssorted_cons in HS as [_ HS]. rewrite agt_in in HS. specialize (HS x Hx). lia.
Qed.

Lemma key_get {V} (k : Z) (es : list (Z * V)) : In k (keys es) -> get k es <> None.
Proof.
  induction es as [|[x v] es IH]; [contradiction|]. cbn [keys map fst get]. intros [->|H].
  - rewrite Z.eqb_refl. discriminate.
  - destruct (_ =? _)%Z; [discriminate|]. now apply IH.
Qed.

Lemma pre_inj {A} (x : list A) : forall a y, pre a x -> pre a y -> length x = length y -> x = y.
Proof.
  induction x as [|u x IH]; intros a [|w y] [R ->] [R' E]; cbn [length map app] in *; try discriminate; auto. intros H.
  injection E as <- E. f_equal. apply (IH (map Some x ++ R)); [now exists R|exists R'; exact E|lia].
Qed.

Section Alike.
Variables (L V : Type) (N M : nat) (O : leafops L V).
Variable lrep : L -> list (Z * V) -> Prop.
Variable lhint : L -> list (Z * V) -> Z -> Prop.
Variables minL minB : nat.
Variable kok : Z -> Prop.
Hypothesis LL : leaf_laws O M minL kok lrep.
Hypothesis EL : erase_laws O M lrep lhint.
Hypothesis HM : 1 <= M.
Hypothesis HmL : minL <= (M + 1) / 2.
Hypothesis HB : minB <= (N + 1) / 2 - 1.
Hypothesis HB2 : 2 <= minB.
Notation wf := (wf N M minL minB).
Notation inv := (inv N lrep).
Notation tinv := (tinv N M lrep minL minB).
Notation wf0_leaf := (@wf0_leaf V N M minL minB _ _ _ _).
Let noguard (h : heap L) (i p c : nat) : res bool := UB.
Lemma noguard_any : forall h i p c, noguard h i p c = Ok true -> good M O (fun _ _ _ => True) h i p c.
Proof. discriminate. Qed.

(** The leaf does not tell [k] from its own key [p]: neither does the tree. *)
Lemma erase_alike d : forall t A i ks (cs : list (gt V)) B m lo hi k p,
  wf m (S d) lo hi (GB i ks cs) -> inb lo hi k -> inv (th t) A [GB i ks cs] B ->
  (forall j l, find_leaf O (th t) (S d) i k = Ok j -> hl (th t) j = Some l -> lo_erase O l k = lo_erase O l p /\ forall es, lrep l es -> In p (keys es)) ->
  1 <= length ks -> S d <= tdepth t -> 2 <= length ks \/ S d = tdepth t ->
  erase_branch N M O t (S d) i k = erase_branch N M O t (S d) i p /\ path_ok N M O t (S d) i k = path_ok N M O t (S d) i p.
Proof.
  induction d as [|d IH]; intros t A i ks cs B m lo hi k p HW Hk HI HL H1 HD H2.
  - destruct HW as [HC HK]. cbn [mn] in HK.
    apply inv_GB in HI as (HI & Hfi & Hni & (b & Eb & Hb)). cbn [fst snd] in *.
    destruct (route HK Hk) as (a & bb & CA & c & CB & -> & -> & LA & LB & Ha & Hbb & KL & Rc & Bc & KR & Hkc).
    destruct (kids_sorted HK) as [HS _].
    destruct (wf0_leaf Rc) as (j & es & -> & Ss & Fs & Cs).
    change (CA ++ GL j es :: CB) with (CA ++ [GL j es] ++ CB) in *.
    pose proof (inv_sub HI) as HIc. destruct (inv_GL HIc) as (l & El & Hl & _).
    pose proof (@bpos_ok L V N M O lrep minL kok LL b a bb _ k Hb HS Ha Hbb) as EP.
    assert (EC : aget (bc b) (length a) = Ok j) by (rewrite (@kid_at V N b _ CA (GL j es) CB (length a) Hb) by auto; reflexivity).
    destruct (HL j l) as [EE HP]; auto.
    { cbn [find_leaf]. unfold getb. rewrite Eb. cbn [of_opt bind]. rewrite EP. cbn [bind]. now rewrite EC. }
    specialize (HP es Hl). rewrite Forall_forall in Fs. pose proof (Fs p HP) as [P1 P2]. apply ssorted_app in HS as HS3. destruct HS3 as (HSa & HSb & _).
    pose proof (@bpos_ok L V N M O lrep minL kok LL b a bb _ p Hb HS (ale_ctx HSa P1) (agt_ctx HSb P2)) as EP2.
    assert (EG : getb (th t) i = Ok b) by (unfold getb; now rewrite Eb).
    assert (EL1 : erase_leaf O (th t) j k = erase_leaf O (th t) j p) by (unfold erase_leaf, getl; rewrite El; cbn [of_opt bind]; now rewrite EE).
    split.
    + cbn [erase_branch]. rewrite !EG. cbn [bind]. rewrite EP, EP2. cbn [bind]. rewrite EC. cbn [bind]. rewrite EL1. reflexivity.
    + cbn [path_ok]. rewrite !EG. cbn [bind]. rewrite EP, EP2. cbn [bind]. rewrite EC. cbn [bind]. rewrite EL1. reflexivity.
  - destruct HW as [HC HK]. cbn [mn] in HK.
    apply inv_GB in HI as (HI & Hfi & Hni & (b & Eb & Hb)). cbn [fst snd] in *.
    destruct (route HK Hk) as (a & bb & CA & c & CB & -> & -> & LA & LB & Ha & Hbb & KL & Rc & Bc & KR & Hkc).
    destruct (kids_sorted HK) as [HS _].
    destruct (wfS_branch Rc) as (j & kc & cc & -> & Cc & Kc).
    change (CA ++ GB j kc cc :: CB) with (CA ++ [GB j kc cc] ++ CB) in *.
    pose proof (inv_sub HI) as HIc.
    pose proof (@bpos_ok L V N M O lrep minL kok LL b a bb _ k Hb HS Ha Hbb) as EP.
    assert (EC : aget (bc b) (length a) = Ok j) by (rewrite (@kid_at V N b _ CA (GB j kc cc) CB (length a) Hb) by auto; reflexivity).
    assert (EF : find_leaf O (th t) (S (S d)) i k = find_leaf O (th t) (S d) j k).
    { change (find_leaf O (th t) (S (S d)) i k) with (do b <- getb (th t) i; do pos <- lo_bpos O (bk b) (bn b) k; do c <- aget (bc b) pos; find_leaf O (th t) (S d) c k).
      unfold getb at 1. rewrite Eb. cbn [of_opt bind]. rewrite EP. cbn [bind]. now rewrite EC. }
    rewrite EF in HL.
    destruct (@find_leaf_ok L V N M O lrep minL minB kok LL (S d) _ (th t) _ (GB j kc cc) _ _ _ k Rc HIc Hkc) as (LA0 & q & eq & LB0 & EQ & EV & _). cbn [gid] in EQ.
    assert (HQ : In (q, eq) (lvs [GB j kc cc])) by (rewrite EV; apply in_or_app; right; now left).
    pose proof (inv_l HIc) as LV. rewrite Forall_forall in LV. destruct (LV _ HQ) as (l & El & Hl). cbn [fst snd] in El, Hl.
    destruct (HL q l EQ El) as [_ HP]. specialize (HP eq Hl).
    assert (HPc : In p (keys (ents [GB j kc cc]))).
    { unfold ents, keys in *. apply in_map_iff in HP as (z & <- & Hz). apply in_map. apply in_flat_map. exists (q, eq). auto. }
    destruct (wf_okc Rc) as [Sc Fc]. rewrite Forall_forall in Fc. pose proof (Fc p HPc) as [P1 P2]. rewrite ents_GB in *.
    apply ssorted_app in HS as HS3. destruct HS3 as (HSa & HSb & _).
    pose proof (@bpos_ok L V N M O lrep minL kok LL b a bb _ p Hb HS (ale_ctx HSa P1) (agt_ctx HSb P2)) as EP2.
    assert (EG : getb (th t) i = Ok b) by (unfold getb; now rewrite Eb).
    assert (GP : get p (ents cc) <> None) by (apply key_get; exact HPc).
    destruct (IH t _ j kc cc _ minB _ _ k p Rc Hkc HIc HL ltac:(lia) ltac:(lia) ltac:(left; lia)) as [IE IP].
    assert (ER : forall j' l' es', find_leaf O (th t) (S d) j p = Ok j' -> hl (th t) j' = Some l' -> lrep l' es' -> sorted es' -> get p es' = get p (ents cc) ->
      exists l'', lo_erase O l' p = Ok (true, l'') /\ lhint l'' (del p es') p).
    { intros j' l' es' _ _ Hl' _ E. apply (law_erase EL Hl'). now rewrite E. }
    destruct (@path_decw L V N M O lrep lhint (fun _ _ _ => True) minL minB kok LL EL HM HmL HB HB2 noguard noguard_any true d t (A ++ lids CA) j kc cc (lids CB ++ B) minB
      (lb lo a) (hbd bb hi) p Rc (conj P1 P2) HIc ER ltac:(lia) ltac:(lia) ltac:(left; lia) (or_introl (free_good EL))) as (x & Ex & Hx & _).
    assert (KE : erase_branch N M O t (S d) j p = UB \/ exists t1 r, erase_branch N M O t (S d) j p = Ok (t1, r) /\ getb (th t1) i = Ok b).
    { destruct x; [right|left; auto].
      destruct (@erase_branch_ok L V N M O lrep lhint (fun _ _ _ => True) minL minB kok LL EL HM HmL HB ltac:(lia) noguard noguard_any true d t (A ++ lids CA) j kc cc (lids CB ++ B) minB
        (lb lo a) (hbd bb hi) p Rc (conj P1 P2) HIc ER ltac:(lia) ltac:(lia) (or_intror (or_introl Ex)) (or_introl (free_good EL))) as (t1 & EE & HR).
      exists t1, true. split; [exact EE|]. destruct HR as [HR|HR]; [|destruct HR as (_ & HR & _); lia].
      destruct HR as (R1 & R2 & kc' & cc' & U0 & _). pose proof (upd_ctx HI U0) as UC. assert (Eb1 : hb (th t1) i = Some b) by (rewrite (fr_b (uo_fr UC)); auto). unfold getb. now rewrite Eb1. }
    split.
    + rewrite !erase_branch_2. rewrite !EG. cbn [bind]. rewrite EP, EP2. cbn [bind]. rewrite EC. cbn [bind]. rewrite IE.
      destruct KE as [->|(t1 & r & -> & EG1)]; [reflexivity|]. cbn [bind]. rewrite !EG1. cbn [bind]. rewrite EP, EP2. reflexivity.
    + rewrite !path_ok_2. rewrite !EG. cbn [bind]. rewrite EP, EP2. cbn [bind]. rewrite EC. cbn [bind]. rewrite IE, IP. reflexivity.
Qed.

(** The leaf erase is undefined: so is the erase. *)
Lemma erase_leaf_ub d : forall t A i ks (cs : list (gt V)) B m lo hi k,
  wf m (S d) lo hi (GB i ks cs) -> inb lo hi k -> inv (th t) A [GB i ks cs] B ->
  (forall j l, find_leaf O (th t) (S d) i k = Ok j -> hl (th t) j = Some l -> lo_erase O l k = UB) ->
  erase_branch N M O t (S d) i k = UB.
Proof.
  induction d as [|d IH]; intros t A i ks cs B m lo hi k HW Hk HI HL.
  - destruct HW as [HC HK]. cbn [mn] in HK.
    apply inv_GB in HI as (HI & Hfi & Hni & (b & Eb & Hb)). cbn [fst snd] in *.
    destruct (route HK Hk) as (a & bb & CA & c & CB & -> & -> & LA & LB & Ha & Hbb & KL & Rc & Bc & KR & Hkc).
    destruct (kids_sorted HK) as [HS _].
    destruct (wf0_leaf Rc) as (j & es & -> & Ss & Fs & Cs).
    change (CA ++ GL j es :: CB) with (CA ++ [GL j es] ++ CB) in *.
    pose proof (inv_sub HI) as HIc. destruct (inv_GL HIc) as (l & El & Hl & _).
    pose proof (@bpos_ok L V N M O lrep minL kok LL b a bb _ k Hb HS Ha Hbb) as EP.
    assert (EC : aget (bc b) (length a) = Ok j) by (rewrite (@kid_at V N b _ CA (GL j es) CB (length a) Hb) by auto; reflexivity).
    assert (EE : lo_erase O l k = UB).
    { apply (HL j l); auto. cbn [find_leaf]. unfold getb. rewrite Eb. cbn [of_opt bind]. rewrite EP. cbn [bind]. now rewrite EC. }
    cbn [erase_branch]. unfold getb at 1. rewrite Eb. cbn [of_opt bind]. rewrite EP. cbn [bind]. rewrite EC. cbn [bind].
    unfold erase_leaf, getl at 1. rewrite El. cbn [of_opt bind]. rewrite EE. reflexivity.
  - destruct HW as [HC HK]. cbn [mn] in HK.
    apply inv_GB in HI as (HI & Hfi & Hni & (b & Eb & Hb)). cbn [fst snd] in *.
    destruct (route HK Hk) as (a & bb & CA & c & CB & -> & -> & LA & LB & Ha & Hbb & KL & Rc & Bc & KR & Hkc).
    destruct (kids_sorted HK) as [HS _].
    destruct (wfS_branch Rc) as (j & kc & cc & -> & Cc & Kc).
    change (CA ++ GB j kc cc :: CB) with (CA ++ [GB j kc cc] ++ CB) in *.
    pose proof (inv_sub HI) as HIc.
    pose proof (@bpos_ok L V N M O lrep minL kok LL b a bb _ k Hb HS Ha Hbb) as EP.
    assert (EC : aget (bc b) (length a) = Ok j) by (rewrite (@kid_at V N b _ CA (GB j kc cc) CB (length a) Hb) by auto; reflexivity).
    assert (EF : find_leaf O (th t) (S (S d)) i k = find_leaf O (th t) (S d) j k).
    { change (find_leaf O (th t) (S (S d)) i k) with (do b <- getb (th t) i; do pos <- lo_bpos O (bk b) (bn b) k; do c <- aget (bc b) pos; find_leaf O (th t) (S d) c k).
      unfold getb at 1. rewrite Eb. cbn [of_opt bind]. rewrite EP. cbn [bind]. now rewrite EC. }
    rewrite EF in HL. rewrite erase_branch_2. unfold getb at 1. rewrite Eb. cbn [of_opt bind]. rewrite EP. cbn [bind]. rewrite EC. cbn [bind].
    rewrite (IH t _ j kc cc _ minB _ _ k Rc Hkc HIc HL). reflexivity.
Qed.

Lemma t_alike t es k p : tinv t es ->
  (forall j l, find_leaf O (th t) (tdepth t) (troot t) k = Ok j -> hl (th t) j = Some l -> lo_erase O l k = lo_erase O l p /\ forall es, lrep l es -> In p (keys es)) ->
  t_erase N M O t k = t_erase N M O t p /\ path_ok N M O t (tdepth t) (troot t) k = path_ok N M O t (tdepth t) (troot t) p.
Proof.
  intros (g & Eg & W & I & <-) HL. destruct t as [h x d]. cbn [troot tdepth th] in *. subst x. unfold t_erase. cbn [troot tdepth th]. destruct d as [|d].
  - destruct (wf0_leaf W) as (j & es & -> & Ss & Fs & Cs). cbn [gid] in *. destruct (inv_GL I) as (l & El & Hl & _).
    destruct (HL j l eq_refl El) as [E _]. split; [|reflexivity]. unfold erase_leaf, getl. rewrite El. cbn [of_opt bind]. now rewrite E.
  - destruct (wfS_branch W) as (j & ks & cs & -> & Cs & KK). cbn [gid rmin] in *.
    apply (@erase_alike d (Tree h j (S d)) [] j ks cs [] 1 None None k p W ltac:(split; exact Logic.I) I HL); cbn [tdepth]; lia.
Qed.

Lemma t_ub t es k : tinv t es ->
  (forall j l, find_leaf O (th t) (tdepth t) (troot t) k = Ok j -> hl (th t) j = Some l -> lo_erase O l k = UB) ->
  t_erase N M O t k = UB.
Proof.
  intros (g & Eg & W & I & <-) HL. destruct t as [h x d]. cbn [troot tdepth th] in *. subst x. unfold t_erase. cbn [troot tdepth th]. destruct d as [|d].
  - destruct (wf0_leaf W) as (j & es & -> & Ss & Fs & Cs). cbn [gid] in *. destruct (inv_GL I) as (l & El & Hl & _).
    pose proof (HL j l eq_refl El) as E. unfold erase_leaf, getl. rewrite El. cbn [of_opt bind]. now rewrite E.
  - destruct (wfS_branch W) as (j & ks & cs & -> & Cs & KK). cbn [gid rmin] in *.
    exact (@erase_leaf_ub d (Tree h j (S d)) [] j ks cs [] 1 None None k W ltac:(split; exact Logic.I) I HL).
Qed.

Lemma leaf_sizes d : forall m lo hi (g : gt V), wf m d lo hi g -> minL <= m \/ d <> 0 -> Forall (fun q => minL <= length (snd q) <= M) (lvs [g]).
Proof.
  clear. induction d as [|d IH]; intros m lo hi [i es|i ks cs] W H; try contradiction W.
  - destruct W as (_ & _ & W). constructor; [|constructor]. cbn [snd]. lia.
  - destruct W as [_ K]. rewrite lvs_GB. unfold lvs. rewrite Forall_forall. intros q Hq. apply in_flat_map in Hq as (c & Hc & Hq).
    destruct (kids_mono K Hc) as (x & y & _ & Wc). eapply IH in Wc; [|destruct d; cbn [mn]; lia].
    rewrite Forall_forall in Wc. apply Wc. unfold lvs. cbn [flat_map]. rewrite app_nil_r. exact Hq.
Qed.

(** The leaf a key belongs to. *)
Lemma t_leaf t es k : tinv t es -> exists j l LA e LB, find_leaf O (th t) (tdepth t) (troot t) k = Ok j /\ hl (th t) j = Some l /\ lrep l e /\
  es = LA ++ e ++ LB /\ alt k (keys LA) /\ agt k (keys LB) /\ (e = [] -> 1 <= minL -> tdepth t = 0).
Proof.
  intros (g & Eg & W & I & <-). destruct (@find_leaf_ok L V N M O lrep minL minB kok LL _ _ (th t) _ g _ None None k W I ltac:(split; exact Logic.I)) as (LA & j & e & LB & E & EV & H1 & H2).
  assert (HQ : In (j, e) (lvs [g])) by (rewrite EV; apply in_or_app; right; now left).
  pose proof (inv_l I) as LV. rewrite Forall_forall in LV. destruct (LV _ HQ) as (l & El & Hl). cbn [fst snd] in El, Hl.
  exists j, l, (flat_map snd LA), e, (flat_map snd LB). rewrite <- Eg. splits; auto.
  - unfold ents. rewrite EV, flat_map_app. reflexivity.
  - intros -> Hm. destruct (tdepth t) as [|d]; auto. exfalso. destruct (wfS_branch W) as (i & ks & cs & -> & Cs & KK).
    pose proof (@leaf_sizes (S d) _ _ _ _ W (or_intror (Nat.neq_succ_0 d))) as F. rewrite Forall_forall in F. specialize (F _ HQ). cbn [snd length] in F. lia.
Qed.
End Alike.

(** ** Sorted leaves *)
Definition slot_law V M (O : leafops (sleaf V) V) : Prop := forall l es k, sl_rep M l es -> get k es = None ->
  match slot_kind l k with
  | Some false => lo_erase O l k = Ok (false, l)
  | Some true => exists e p v, es = e ++ [(p, v)] /\ (p < k)%Z /\ lo_erase O l k = lo_erase O l p
  | None => lo_erase O l k = UB
  end.

Section Leaf.
Variables (V : Type) (M : nat) (lpos : arr Z -> nat -> Z -> res nat).
Hypothesis HM : 2 <= M.
Hypothesis lpos_ok : forall a b R key, ssorted (a ++ b) -> alt key a -> age key b ->
  lpos (map Some (a ++ b) ++ R) (length (a ++ b)) key = Ok (length a).

Lemma sl_slot (l : sleaf V) es k : sl_rep M l es -> get k es = None ->
  match slot_kind l k with
  | Some false => sl_erase lpos l k = Ok (false, l)
  | Some true => exists e p v, es = e ++ [(p, v)] /\ (p < k)%Z /\ sl_erase lpos l k = sl_erase lpos l p
  | None => sl_erase lpos l k = UB
  end.
Proof.
  intros H G. pose proof H as (HS & Hn & HC & L1 & L2 & HP & _).
  destruct (locate k HS) as [(a & b & -> & Ha & Hb)|(a & w & b & -> & Ha & Hb)].
  2:{ rewrite get_old in G by assumption. discriminate. }
  assert (EL : lpos (sk l) (sn l) k = Ok (length a)) by exact (lpos_rep lpos_ok H eq_refl Ha (agt_age HM lpos_ok Hb)).
  unfold slot_kind. destruct b as [|[y w] b].
  - rewrite app_nil_r in *.
    assert (EX : existsb (fun i => match aget (sk l) i with Ok x => (k <? x)%Z | _ => false end) (seq 0 (sn l)) = false).
    { apply Bool.not_true_iff_false. intros X. apply existsb_exists in X as (i & Hi & X). apply in_seq in Hi.
      destruct (nth_error (keys a) i) as [z|] eqn:Ez; [|apply nth_error_None in Ez; rewrite keys_length in Ez; lia].
      rewrite (pre_get_nth HP Ez) in X. apply nth_error_In in Ez. unfold alt in Ha. rewrite Forall_forall in Ha. specialize (Ha _ Ez). cbn in Ha. lia. }
    rewrite EX. assert (EE : sl_erase lpos l k = sl_erase lpos l k) by reflexivity. unfold sl_erase at 2 in EE. rewrite EL in EE. cbn [bind] in EE.
    rewrite <- Hn in EE. rewrite EE. clear EE. destruct (aget (sk l) (sn l)) as [x| |] eqn:Ex; cbn [bind]; auto.
    2:{ unfold aget in Ex. destruct (nth_error _ _) as [[?|]|]; discriminate. }
    destruct (Z.eqb_spec x k) as [->|NX]; [|reflexivity]. destruct (Nat.eqb_spec (sn l) 0) as [E0|E0]; [reflexivity|].
    destruct (rev_case a) as [->|(e & [p v] & ->)]; [cbn in Hn; congruence|].
    exists e, p, v. unfold alt in Ha. rewrite keys_app in Ha. apply Forall_app in Ha as [Ha1 Ha2]. inversion Ha2; subst. cbn [fst] in *. splits; auto.
    assert (Hp : alt p (keys e)).
    { unfold sorted in HS. rewrite keys_app in HS. apply ssorted_app in HS as (_ & _ & HS). apply alt_in. intros x Hx. apply HS; [exact Hx|now left]. }
    unfold sl_erase. rewrite (lpos_rep lpos_ok H eq_refl Hp) by (unfold age; constructor; [cbn; lia|constructor]). cbn [bind].
    destruct (sl_rep_key H eq_refl) as [-> _]. cbn [bind]. rewrite Z.eqb_refl. apply Nat.eqb_neq in E0. rewrite ?E0. rewrite app_length in Hn. cbn [length] in Hn.
    replace (sn l - 1 - sn l) with 0 by lia. replace (sn l - 1 - length e) with 0 by lia. reflexivity.
  - destruct (@sl_rep_key V M l a y w b (length a) H eq_refl) as [Ey _]. unfold agt in Hb. cbn [keys map fst] in Hb. apply Forall_inv in Hb. cbn beta in Hb.
    assert (EX : existsb (fun i => match aget (sk l) i with Ok x => (k <? x)%Z | _ => false end) (seq 0 (sn l)) = true).
    { apply existsb_exists. exists (length a). split; [apply in_seq; rewrite Hn, app_length; cbn [length]; lia|]. rewrite Ey. lia. }
    rewrite EX. unfold sl_erase. rewrite EL. cbn [bind]. rewrite Ey. cbn [bind]. destruct (Z.eqb_spec y k); [lia|reflexivity].
Qed.
End Leaf.

Lemma pbp_slot V M : 2 <= M -> slot_law M (pbp_ops V M).
Proof. intros HM l es k. apply sl_slot; [exact HM|]. intros. apply bsearch_pos_correct; simpl; auto. Qed.
Lemma bp_slot V M : 2 <= M -> slot_law M (bp_ops V M).
Proof. intros HM l es k. apply sl_slot; [exact HM|]. intros. apply lsearch_pos_correct; simpl; auto. Qed.
Lemma hpbp_slot V M : 2 <= M -> slot_law M (hpbp_ops V M).
Proof. exact (@pbp_slot V M). Qed.

Section Sorted.
Variables (V : Type) (N M : nat) (O : leafops (sleaf V) V).
Hypothesis LL : leaf_laws O M (M / 2) (fun _ => True) (sl_rep M).
Hypothesis EL : erase_laws O M (sl_rep M) (sl_hint M).
Hypothesis KL : slot_law M O.
Hypothesis HM : 2 <= M.
Hypothesis HN : 5 <= N.
Notation tinv := (tinv N M (sl_rep M) (M / 2) ((N + 1) / 2 - 1)).
Notation pok t k := (path_ok N M O t (tdepth t) (troot t) k).
Let noguard (h : heap (sleaf V)) (i p c : nat) : res bool := UB.
Lemma noguard_sl : forall h i p c, noguard h i p c = Ok true -> good M O (fun _ _ _ => True) h i p c.
Proof. discriminate. Qed.

(** An erase that goes well in the leaf: the branch nodes decide. *)
Lemma erase_dec r t es k : tinv t es ->
  (forall j l es', find_leaf O (th t) (tdepth t) (troot t) k = Ok j -> hl (th t) j = Some l -> sl_rep M l es' -> sorted es' -> get k es' = get k es ->
    exists l', lo_erase O l k = Ok (r, l') /\ sl_hint M l' (del k es') k) ->
  exists c, pok t k = Ok c /\ (Nat.even N = true -> c = true) /\
    if c then exists t', t_erase N M O t k = Ok (t', r) /\ tinv t' (del k es) else t_erase N M O t k = UB.
Proof.
  intros I HG. assert (A1 : 1 <= M) by lia. assert (A2 : M / 2 <= (M + 1) / 2) by lia.
  assert (A5 : 2 <= (N + 1) / 2 - 1) by lia.
  destruct (tinv_tinvf I) as (f & If).
  assert (GO : (2 * ((N + 1) / 2) <= N /\ 2 <= (N + 1) / 2 - 1) \/ pok t k = Ok true \/ tdepth t <= 1 -> exists t', t_erase N M O t k = Ok (t', r) /\ tinv t' (del k es)).
  { intros HP. destruct (@t_erase_genf_w _ V N M O _ _ (fun _ _ _ => True) _ _ (fun _ => True) LL EL A1 A2 (Nat.le_refl _) ltac:(lia) noguard noguard_sl f r t es k If HG HP (or_introl (free_good EL)))
      as (t' & E & I'). exists t'. split; [exact E|]. eapply tinvf_tinv; eauto. }
  assert (PX : exists c, pok t k = Ok c /\ (c = false -> t_erase N M O t k = UB)).
  { clear GO If f. destruct I as (g & Eg & W & I & <-). destruct t as [h x d]. cbn [troot tdepth th] in *. subst x. destruct d as [|d].
    - exists true. split; [reflexivity|discriminate].
    - destruct (wfS_branch W) as (j & ks & cs & -> & Cs & KK). rewrite ents_GB in *. cbn [gid rmin] in *.
      destruct (@path_decw _ V N M O _ _ (fun _ _ _ => True) _ _ (fun _ => True) LL EL A1 A2 (Nat.le_refl _) A5 noguard noguard_sl r d (Tree h j (S d)) [] j ks cs [] 1 None None k
        W ltac:(split; exact Logic.I) I HG ltac:(lia) (Nat.le_refl _) (or_intror eq_refl) (or_introl (free_good EL))) as (c & E & Hc & _).
      exists c. split; [exact E|exact Hc]. }
  destruct PX as (c & EC & HC). exists c. split; [exact EC|]. split.
  - intros HE. destruct (even_half HE) as [H1 _]. destruct c; [reflexivity|]. destruct GO as (t' & E & _); [left; lia|]. rewrite (HC eq_refl) in E. discriminate.
  - destruct c; [|now apply HC]. apply GO. right. left. exact EC.
Qed.

Definition below_l (es : list (Z * V)) (k p : Z) : Prop := In p (keys es) /\ (p < k)%Z /\ forall q, In q (keys es) -> (q < k)%Z -> (q <= p)%Z.

Lemma erase_any t es k : tinv t es -> get k es = None -> exists j l, find_leaf O (th t) (tdepth t) (troot t) k = Ok j /\ hl (th t) j = Some l /\
  match slot_kind l k with
  | None => t_erase N M O t k = UB
  | Some r => exists c, pok t k = Ok c /\ (Nat.even N = true -> c = true) /\
      if c then exists t' es', t_erase N M O t k = Ok (t', r) /\ tinv t' es' /\ (if r then exists p, below_l es k p /\ es' = del p es else es' = es)
      else t_erase N M O t k = UB
  end.
Proof.
  intros I G.
  assert (A1 : 1 <= M) by lia. assert (A2 : M / 2 <= (M + 1) / 2) by lia.
  assert (A5 : 2 <= (N + 1) / 2 - 1) by lia. assert (A6 : 1 <= M / 2) by lia.
  destruct (@t_leaf _ _ N M O (sl_rep M) (M / 2) ((N + 1) / 2 - 1) _ LL A1 A2 (Nat.le_refl _) A5 t es k I) as (j & l & LA & e & LB & EF & El & Hl & EE & Hlt & Hgt & H0).
  exists j, l. split; [exact EF|]. split; [exact El|].
  assert (Ge : get k e = None) by (rewrite EE, get_app_lt, get_app_gt in G by assumption; exact G).
  pose proof (KL Hl Ge) as KE. destruct (slot_kind l k) as [[|]|].
  - destruct KE as (e0 & p & v & -> & Hp & KE). rewrite app_assoc in EE.
    assert (Hin : In p (keys es)) by (rewrite EE, !keys_app; apply in_or_app; left; rewrite !in_app_iff; right; right; now left).
    assert (Alike : t_erase N M O t k = t_erase N M O t p /\ pok t k = pok t p).
    { apply (@t_alike _ _ N M O _ _ _ _ _ LL EL A1 A2 (Nat.le_refl _) A5 t es k p I). intros j' l' EF' El'. rewrite EF in EF'. injection EF' as <-. rewrite El in El'. injection El' as <-.
      split; [exact KE|]. intros e' He'. destruct Hl as (_ & Q1 & _ & _ & _ & Q2 & _), He' as (_ & R1 & _ & _ & _ & R2 & _).
      replace (keys e') with (keys (e0 ++ [(p, v)])); [rewrite keys_app; apply in_or_app; right; now left|].
      apply (pre_inj Q2 R2). rewrite !keys_length. congruence. }
    destruct Alike as [-> ->]. destruct (@erase_dec true t es p I) as (c & EC & HC & HR).
    { intros j' l' es' _ _ Hl' _ E. apply (law_erase EL Hl'). rewrite E. now apply key_get. }
    exists c. split; [exact EC|]. split; [exact HC|]. destruct c; [|exact HR]. destruct HR as (t' & ET & I').
    exists t', (del p es). split; [exact ET|]. split; [exact I'|]. exists p. split; [|reflexivity].
    split; [exact Hin|]. split; [exact Hp|]. intros q Hq Hqk. assert (SS : sorted es) by (eapply tinv_sorted; eauto).
    rewrite EE in Hq, SS. rewrite keys_app in Hq. apply in_app_or in Hq as [Hq|Hq].
    + unfold sorted in SS. rewrite keys_app in SS. apply ssorted_app in SS as (SS & _ & _). rewrite app_assoc, keys_app in SS, Hq. apply ssorted_app in SS as (_ & _ & SS).
      apply in_app_or in Hq as [Hq|[<-|[]]]; [|cbn; lia]. specialize (SS q p Hq ltac:(now left)). lia.
    + rewrite agt_in in Hgt. specialize (Hgt q Hq). lia.
  - destruct e as [|[x w] e].
    + exists true. specialize (H0 eq_refl A6). destruct I as (g & Eg & W & I & <-). destruct t as [h r d]. cbn [troot tdepth th] in *. subst d r.
      split; [reflexivity|]. split; [reflexivity|].
      destruct (@wf0_leaf V N M _ _ _ _ _ _ W) as (j' & es & -> & Ss & Fs & Cs). cbn [gid find_leaf] in *. injection EF as <-.
      unfold t_erase. cbn [troot tdepth th]. unfold erase_leaf, getl. rewrite El. cbn [of_opt bind]. rewrite KE. cbn [bind fst snd].
      eexists. exists (ents [GL j' es]). split; [reflexivity|]. split; [|reflexivity]. rewrite ents_GL in *. assert (Hl' : sl_rep M l es).
      { destruct (inv_GL I) as (l0 & El0 & Hl0 & _). rewrite El in El0. injection El0 as <-. exact Hl0. }
      exists (GL j' es). cbn [troot tdepth th gid]. splits; auto; [exact (uo_inv (set_leaf_upd I Hl'))|now rewrite ents_GL].
    + destruct (@erase_dec false t es k I) as (c & EC & HC & HR).
      { intros j' l' e' EF' El' He' _ Ge'. rewrite G in Ge'.
        rewrite EF in EF'. injection EF' as <-. rewrite El in El'. injection El' as <-. exists l. split; [exact KE|]. rewrite (del_none Ge'). split; [exact He'|]. intros ->.
        destruct Hl as (_ & Q1 & _), He' as (_ & R1 & _). cbn [length] in *. congruence. }
      exists c. split; [exact EC|]. split; [exact HC|]. destruct c; [|exact HR]. destruct HR as (t' & ET & I'). rewrite (del_none G) in I'. eauto.
  - apply (@t_ub _ _ N M O (sl_rep M) (M / 2) ((N + 1) / 2 - 1) _ LL t es k I). intros j' l' EF' El'. rewrite EF in EF'. injection EF' as <-. rewrite El in El'. injection El' as <-. exact KE.
Qed.

Lemma get_keys k (es : list (Z * V)) : get k es <> None -> In k (keys es).
Proof.
  clear. induction es as [|[x v] es IH]; cbn [get keys map fst]; [congruence|]. destruct (_ =? _)%Z eqn:E; [left; lia|]. intros H. right. apply IH. exact H.
Qed.
Lemma below_m es (m : amap V) k p : (forall x, get x es = m x) -> below_l es k p -> below m k p.
Proof.
  clear. intros E (H1 & H2 & H3). split; [|split; auto].
  - rewrite <- E. now apply key_get.
  - intros q Hq. apply H3. apply get_keys. now rewrite E.
Qed.

(** Every run ends in a tree that holds one of the maps [after] describes, or is undefined. *)
Lemma run_any os : forall t es m, tinv t es -> (forall x, get x es = m x) ->
  t_run N M O t (map bop_of os) = UB \/
  exists t' es' m', t_run N M O t (map bop_of os) = Ok t' /\ tinv t' es' /\ (forall x, get x es' = m' x) /\ after m os m'.
Proof.
  assert (HN2 : 2 <= N) by lia.
  induction os as [|o os IH]; intros t es m I E; cbn [map t_run].
  - right. exists t, es, m. repeat (split; auto). constructor. auto.
  - assert (SS : sorted es) by (eapply tinv_sorted; eauto).
    assert (DL : forall p x, get x (del p es) = m_del m p x) by (intros p x; rewrite get_del by exact SS; unfold m_del; destruct (x =? p)%Z; auto).
    assert (STEP : forall t1 es1 m1, tinv t1 es1 -> (forall x, get x es1 = m1 x) -> (forall m', after m1 os m' -> after m (o :: os) m') ->
      t_run N M O t1 (map bop_of os) = UB \/ exists t' es' m', t_run N M O t1 (map bop_of os) = Ok t' /\ tinv t' es' /\ (forall x, get x es' = m' x) /\ after m (o :: os) m').
    { intros t1 es1 m1 I1 E1 HA. destruct (IH t1 es1 m1 I1 E1) as [U|(t' & es' & m' & X1 & X2 & X3 & X4)]; [left; exact U|].
      right. exists t', es', m'. split; [exact X1|]. split; [exact X2|]. split; [exact X3|]. now apply HA. }
    destruct o as [k v|k]; cbn [bop_of t_step].
    + destruct (t_insert_ok LL HN2 (Nat.le_refl _) (k := k) v Logic.I I) as (t1 & E1 & I1). rewrite E1. cbn [bind].
      apply (STEP t1 _ (m_put m k v) I1); [|intros; now constructor]. intros x. rewrite get_ins by exact SS. unfold m_put. destruct (x =? k)%Z; auto.
    + destruct (get k es) as [v|] eqn:G.
      * destruct (@erase_dec true t es k I) as (c & _ & _ & HR). { intros j l es' _ _ Hl _ E'. apply (law_erase EL Hl). rewrite E', G. discriminate. }
        destruct c; [|rewrite HR; left; reflexivity]. destruct HR as (t1 & E1 & I1). rewrite E1. cbn [bind].
        apply (STEP t1 _ (m_del m k) I1 (DL k)). intros m'. apply after_del. rewrite <- E, G. discriminate.
      * assert (Em : m k = None) by (now rewrite <- E). destruct (erase_any I G) as (j & l & _ & _ & HK).
        destruct (slot_kind l k) as [r|]; [|rewrite HK; left; reflexivity]. destruct HK as (c & _ & _ & HK).
        destruct c; [|rewrite HK; left; reflexivity]. destruct HK as (t1 & es1 & E1 & I1 & HK). rewrite E1. cbn [bind]. destruct r.
        -- destruct HK as (p & HB & ->). apply (STEP t1 _ (m_del m p) I1 (DL p)). intros m'. apply after_take; [exact Em|eapply below_m; eauto].
        -- subst es1. apply (STEP t1 _ m I1 E). intros m'. now apply after_keep.
Qed.

Lemma sorted_any os : t_run N M O (t_new O) (map bop_of os) = UB \/
  exists t m, t_run N M O (t_new O) (map bop_of os) = Ok t /\ after m_empty os m /\ forall x, t_lookup O t x = Ok (m x).
Proof.
  destruct (@run_any os (t_new O) [] m_empty) as [U|(t & es & m & E & I & G & A)]; auto.
  - eapply tinv_new; eauto; lia.
  - right. exists t, m. split; [exact E|]. split; [exact A|]. intros x. rewrite (t_lookup_ok LL x I). now rewrite G.
Qed.

Lemma sorted_exact os t : t_run N M O (t_new O) (map bop_of os) = Ok t ->
  exists m, after m_empty os m /\ (forall x, t_lookup O t x = Ok (m x)) /\ forall k, m k = None ->
  exists j l, find_leaf O (th t) (tdepth t) (troot t) k = Ok j /\ hl (th t) j = Some l /\
  match slot_kind l k with
  | None => t_erase N M O t k = UB
  | Some r => exists c, pok t k = Ok c /\ (Nat.even N = true -> c = true) /\
      if c then exists t' m', t_erase N M O t k = Ok (t', r) /\ (forall x, t_lookup O t' x = Ok (m' x)) /\
                  if r then exists p, below m k p /\ forall x, m' x = m_del m p x else forall x, m' x = m x
      else t_erase N M O t k = UB
  end.
Proof.
  intros ET. destruct (@run_any os (t_new O) [] m_empty) as [U|(t0 & es & m & E & I & G & A)]; auto.
  - eapply tinv_new; eauto; lia.
  - congruence.
  - rewrite E in ET. injection ET as ->. exists m. split; [exact A|]. split; [intros x; rewrite (t_lookup_ok LL x I); now rewrite G|].
    intros k Hk. rewrite <- G in Hk. destruct (erase_any I Hk) as (j & l & EF & El & HK). exists j, l. split; [exact EF|]. split; [exact El|].
    destruct (slot_kind l k) as [r|]; [|exact HK]. destruct HK as (c & EC & HC & HK). exists c. split; [exact EC|]. split; [exact HC|]. destruct c; [|exact HK].
    destruct HK as (t' & es' & E' & I' & HK). exists t', (fun x => get x es'). split; [exact E'|]. split; [intros x; apply (t_lookup_ok LL x I')|]. destruct r.
    + destruct HK as (p & HB & ->). exists p. split; [eapply below_m; eauto|]. intros x. rewrite get_del by (eapply tinv_sorted; eauto). unfold m_del. now rewrite G.
    + subst es'. exact G.
Qed.
End Sorted.

(** Erases of stored keys only: [after] is the run of the map. *)
Lemma after_hist {V} os : forall (m m' : amap V), after m os m' -> hist_ok m os -> forall x, m' x = fold_left (@m_step V) os m x.
Proof.
  induction os as [|o os IH]; intros m m' A F x; inversion A; subst; cbn [fold_left]; auto; destruct F as [F1 F2]; cbn [op_ok] in F1; try contradiction;
    try (apply IH; auto; fail).
Qed.
