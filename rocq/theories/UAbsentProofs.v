(** UnsortedPBPTree: an erase of a key that is not stored does what an erase of the last key of the leaf does, if it does anything. *)
From Verif Require Import Base ArrLemmas MapSpec SortedList RankModel BTreeModel BTreeSpec BTreeLaws BTreeBranch BTreeGhost
  BTreeInsert EraseSpec PathSpec BTreeErase BTreeHist BTreeMain CutEProofs SLeafModel SLeafProofs ULeafModel ULeafProofs UTreeProofs
  EraseG EraseX PathProofs PathX AbsentSpec AbsentProofs.
Open Scope nat_scope.

(** The same operations, but for the erase in a leaf. *)
Definition with_erase {L V} (O : leafops L V) (e : L -> Z -> res (bool * L)) : leafops L V :=
  LeafOps (lo_new O) (lo_count O) (lo_lookup O) (lo_insert O) e (lo_merge O) (lo_balance O) (lo_minkey O)
          (lo_scan O) (lo_range O) (lo_bpos O) (lo_del_after O).

Section Alike.
Variables (L V : Type) (N M : nat) (O : leafops L V) (e : L -> Z -> res (bool * L)).
Variable lrep : L -> list (Z * V) -> Prop.
Variable lhint : L -> list (Z * V) -> Z -> Prop.
Variables minL minB : nat.
Variable kok : Z -> Prop.
Notation O' := (with_erase O e).
Hypothesis LL : leaf_laws O M minL kok lrep.
Hypothesis EL : erase_core O' M lrep lhint (fun _ _ _ => True).
Hypothesis DA : lo_del_after O = true.
Hypothesis HM : 1 <= M.
Hypothesis HmL : minL <= (M + 1) / 2.
Hypothesis HmL1 : 1 <= minL.
Hypothesis HB : minB <= (N + 1) / 2 - 1.
Hypothesis HB2 : 2 <= minB.
Notation wf := (wf N M minL minB).
Notation inv := (inv N lrep).
Notation tinv := (tinv N M lrep minL minB).
Notation wf0_leaf := (@wf0_leaf V N M minL minB _ _ _ _).

Lemma with_laws : leaf_laws O' M minL kok lrep.
Proof. clear - LL. destruct LL. constructor; assumption. Qed.
Let noguard (h : heap L) (i p c : nat) : res bool := UB.
Lemma noguard_w : forall h i p c, noguard h i p c = Ok true -> good M (nofree O') (fun _ _ _ => True) h i p c.
Proof. discriminate. Qed.

(** The parent of the subtree stays as it is. *)
Lemma keeps d t A i CA j kc (cc : list (gt V)) CB B lo hi p : inv (th t) A (CA ++ [GB j kc cc] ++ CB) B -> i < hfresh (th t) -> ~ In i (bids (CA ++ [GB j kc cc] ++ CB)) ->
  wf minB (S d) lo hi (GB j kc cc) -> inb lo hi p -> get p (ents cc) <> None -> 2 <= length kc -> S d < tdepth t ->
  erase_branch N M O' t (S d) j p = UB \/ exists t1 r, erase_branch N M O' t (S d) j p = Ok (t1, r) /\ hb (th t1) i = hb (th t) i.
Proof.
  intros HI Hi Hni Rc HP GP H2 HD. pose proof (inv_sub HI) as HIc. pose proof with_laws as LL'.
  assert (ER : forall j' l' es', find_leaf O' (th t) (S d) j p = Ok j' -> hl (th t) j' = Some l' -> lrep l' es' -> sorted es' -> get p es' = get p (ents cc) ->
      exists l'', lo_erase O' l' p = Ok (true, l'') /\ lhint l'' (del p es') p).
  { intros j' l' es' _ _ Hl' _ E. apply (law_erase EL Hl'). now rewrite E. }
  destruct (@guard_decw L V N M O' lrep lhint minL minB kok LL' HM HmL1 HmL HB HB2 true d (th t) (A ++ lids CA) j kc cc (lids CB ++ B) minB lo hi p Rc HP HIc ER ltac:(lia)) as (g & EG).
  destruct g.
  - destruct (@path_decw L V N M O' lrep lhint (fun _ _ _ => True) minL minB kok LL' EL HM HmL HB HB2 _ (@rm_good _ _ M O' (fun _ _ _ => True) (fun _ _ _ => Logic.I)) true d t (A ++ lids CA) j kc cc (lids CB ++ B) minB
      lo hi p Rc HP HIc ER ltac:(lia) ltac:(lia) ltac:(left; lia) (or_intror EG)) as (x & Ex & Hx & _).
    destruct x; [right|left; auto].
    destruct (@erase_branch_ok L V N M O' lrep lhint (fun _ _ _ => True) minL minB kok LL' EL HM HmL HB ltac:(lia) _ (@rm_good _ _ M O' (fun _ _ _ => True) (fun _ _ _ => Logic.I)) true d t (A ++ lids CA) j kc cc (lids CB ++ B) minB
        lo hi p Rc HP HIc ER ltac:(lia) ltac:(lia) (or_intror (or_introl Ex)) (or_intror EG)) as (t1 & EE & HR).
    exists t1, true. split; [exact EE|]. destruct HR as [HR|HR]; [|destruct HR as (_ & HR & _); lia].
    destruct HR as (R1 & R2 & kc' & cc' & U0 & _). pose proof (upd_ctx HI U0) as UC. now rewrite (fr_b (uo_fr UC)).
  - destruct (@path_rel L V N M O' lrep lhint minL minB kok LL' EL DA HM HmL HmL1 HB HB2 true d t (A ++ lids CA) j kc cc (lids CB ++ B) minB
      lo hi p Rc HP HIc ER ltac:(lia) ltac:(lia) ltac:(left; lia) EG) as (x & Ex & _ & Hx).
    destruct x; [right|left; auto].
    destruct (@erase_branch_ok L V N M (nofree O') lrep lhint (fun _ _ _ => True) minL minB kok (nofree_laws LL') (nofree_erase EL) HM HmL HB ltac:(lia) noguard noguard_w true d t (A ++ lids CA) j kc cc (lids CB ++ B) minB
        lo hi p Rc HP HIc ER ltac:(lia) ltac:(lia) (or_intror (or_introl Ex)) (or_introl (free_good (nofree_erase EL)))) as (t1 & EE & HR).
    destruct (@erase_rel L V N M O' DA d t t1 j p true EE EG) as (t2 & q & n & n2 & E2 & B1 & _). exists t2, true. split; [exact E2|]. rewrite B1.
    destruct HR as [HR|HR]; [|destruct HR as (_ & HR & _); lia].
    destruct HR as (R1 & R2 & kc' & cc' & U0 & _). pose proof (upd_ctx HI U0) as UC. now rewrite (fr_b (uo_fr UC)).
Qed.

(** The leaf does with [k] what [e] does with its own key [p]: so does the tree. *)
Lemma alike_e d : forall t A i ks (cs : list (gt V)) B m lo hi k p,
  wf m (S d) lo hi (GB i ks cs) -> inb lo hi k -> inv (th t) A [GB i ks cs] B ->
  (forall j l, find_leaf O (th t) (S d) i k = Ok j -> hl (th t) j = Some l -> lo_erase O l k = e l p /\ forall es, lrep l es -> In p (keys es)) ->
  1 <= length ks -> S d <= tdepth t -> 2 <= length ks \/ S d = tdepth t ->
  erase_branch N M O t (S d) i k = erase_branch N M O' t (S d) i p /\ path_ok N M O t (S d) i k = path_ok N M O' t (S d) i p /\
  leaf_guard M O (rm_ok M O) (th t) (S d) i k = leaf_guard M O' (rm_ok M O') (th t) (S d) i p.
Proof.
  induction d as [|d IH]; intros t A i ks cs B m lo hi k p HW Hk HI HL H1 HD H2.
  - destruct HW as [HC HK]. cbn [mn] in HK.
    apply inv_GB in HI as (HI & Hfi & Hni & (b & Eb & Hb)). cbn [fst snd] in *.
    destruct (route HK Hk) as (a & bb & CA & c & CB & -> & -> & LA & LB & Ha & Hbb & KL & Rc & Bc & KR & Hkc).
    destruct (kids_sorted HK) as [HS _].
    destruct (wf0_leaf Rc) as (j & es & -> & Ss & Fs & Cs).
    change (CA ++ GL j es :: CB) with (CA ++ [GL j es] ++ CB) in *.
    pose proof (inv_sub HI) as HIc. destruct (inv_GL HIc) as (l & El & Hl & _).
    pose proof (@bpos_ok L V N M O lrep minL kok LL b a bb _ k Hb HS Ha Hbb) as EP.
    assert (EC : aget (bc b) (length a) = Ok j) by (rewrite (@kid_at V N b _ CA (GL j es) CB (length a) Hb) by auto; reflexivity).
    destruct (HL j l) as [EE HP]; auto.
    { cbn [find_leaf]. unfold getb. rewrite Eb. cbn [of_opt bind]. rewrite EP. cbn [bind]. now rewrite EC. }
    specialize (HP es Hl). rewrite Forall_forall in Fs. pose proof (Fs p HP) as [P1 P2]. apply ssorted_app in HS as HS3. destruct HS3 as (HSa & HSb & _).
    pose proof (@bpos_ok L V N M O lrep minL kok LL b a bb _ p Hb HS (ale_ctx HSa P1) (agt_ctx HSb P2)) as EP2.
    assert (EG : getb (th t) i = Ok b) by (unfold getb; now rewrite Eb).
    assert (EL1 : erase_leaf O (th t) j k = erase_leaf O' (th t) j p) by (unfold erase_leaf, getl; rewrite El; cbn [of_opt bind]; now rewrite EE).
    split; [|split].
    + cbn [erase_branch with_erase lo_bpos]. rewrite !EG. cbn [bind]. rewrite EP, EP2. cbn [bind]. rewrite EC. cbn [bind]. rewrite EL1. reflexivity.
    + cbn [path_ok with_erase lo_bpos]. rewrite !EG. cbn [bind]. rewrite EP, EP2. cbn [bind]. rewrite EC. cbn [bind]. rewrite EL1. reflexivity.
    + cbn [leaf_guard with_erase lo_bpos]. rewrite !EG. cbn [bind]. rewrite EP, EP2. cbn [bind]. rewrite EC. cbn [bind]. rewrite EL1. reflexivity.
  - destruct HW as [HC HK]. cbn [mn] in HK.
    apply inv_GB in HI as (HI & Hfi & Hni & (b & Eb & Hb)). cbn [fst snd] in *.
    destruct (route HK Hk) as (a & bb & CA & c & CB & -> & -> & LA & LB & Ha & Hbb & KL & Rc & Bc & KR & Hkc).
    destruct (kids_sorted HK) as [HS _].
    destruct (wfS_branch Rc) as (j & kc & cc & -> & Cc & Kc).
    change (CA ++ GB j kc cc :: CB) with (CA ++ [GB j kc cc] ++ CB) in *.
    pose proof (inv_sub HI) as HIc.
    pose proof (@bpos_ok L V N M O lrep minL kok LL b a bb _ k Hb HS Ha Hbb) as EP.
    assert (EC : aget (bc b) (length a) = Ok j) by (rewrite (@kid_at V N b _ CA (GB j kc cc) CB (length a) Hb) by auto; reflexivity).
    assert (EG : getb (th t) i = Ok b) by (unfold getb; now rewrite Eb).
    assert (EF : find_leaf O (th t) (S (S d)) i k = find_leaf O (th t) (S d) j k).
    { change (find_leaf O (th t) (S (S d)) i k) with (do b <- getb (th t) i; do pos <- lo_bpos O (bk b) (bn b) k; do c <- aget (bc b) pos; find_leaf O (th t) (S d) c k).
      rewrite EG. cbn [bind]. rewrite EP. cbn [bind]. now rewrite EC. }
    rewrite EF in HL.
    destruct (@find_leaf_ok L V N M O lrep minL minB kok LL (S d) _ (th t) _ (GB j kc cc) _ _ _ k Rc HIc Hkc) as (LA0 & q & eq & LB0 & EQ & EV & _). cbn [gid] in EQ.
    assert (HQ : In (q, eq) (lvs [GB j kc cc])) by (rewrite EV; apply in_or_app; right; now left).
    pose proof (inv_l HIc) as LV. rewrite Forall_forall in LV. destruct (LV _ HQ) as (l & El & Hl). cbn [fst snd] in El, Hl.
    destruct (HL q l EQ El) as [_ HP]. specialize (HP eq Hl).
    assert (HPc : In p (keys (ents [GB j kc cc]))).
    { unfold ents, keys in *. apply in_map_iff in HP as (z & <- & Hz). apply in_map. apply in_flat_map. exists (q, eq). auto. }
    destruct (wf_okc Rc) as [Sc Fc]. rewrite Forall_forall in Fc. pose proof (Fc p HPc) as [P1 P2]. rewrite ents_GB in *.
    apply ssorted_app in HS as HS3. destruct HS3 as (HSa & HSb & _).
    pose proof (@bpos_ok L V N M O lrep minL kok LL b a bb _ p Hb HS (ale_ctx HSa P1) (agt_ctx HSb P2)) as EP2.
    assert (GP : get p (ents cc) <> None) by (apply key_get; exact HPc).
    destruct (IH t _ j kc cc _ minB _ _ k p Rc Hkc HIc HL ltac:(lia) ltac:(lia) ltac:(left; lia)) as (IE & IP & IG).
    destruct (@keeps d t A i CA j kc cc CB B _ _ p HI Hfi Hni Rc (conj P1 P2) GP ltac:(lia) ltac:(lia)) as [KE|(t1 & r & KE & HB1)].
    + split; [|split].
      * rewrite !erase_branch_2. cbn [with_erase lo_bpos]. rewrite !EG. cbn [bind]. rewrite EP, EP2. cbn [bind]. rewrite EC. cbn [bind]. rewrite IE, KE. reflexivity.
      * rewrite !path_ok_2. cbn [with_erase lo_bpos]. rewrite !EG. cbn [bind]. rewrite EP, EP2. cbn [bind]. rewrite EC. cbn [bind]. rewrite IE, IP. reflexivity.
      * rewrite !leaf_guard_S. cbn [with_erase lo_bpos]. rewrite !EG. cbn [bind]. rewrite EP, EP2. cbn [bind]. rewrite EC. cbn [bind]. exact IG.
    + assert (EG1 : getb (th t1) i = Ok b) by (unfold getb; rewrite HB1, Eb; reflexivity). split; [|split].
      * rewrite !erase_branch_2. cbn [with_erase lo_bpos]. rewrite !EG. cbn [bind]. rewrite EP, EP2. cbn [bind]. rewrite EC. cbn [bind]. rewrite IE, KE. cbn [bind]. rewrite !EG1. cbn [bind].
        rewrite EP, EP2. reflexivity.
      * rewrite !path_ok_2. cbn [with_erase lo_bpos]. rewrite !EG. cbn [bind]. rewrite EP, EP2. cbn [bind]. rewrite EC. cbn [bind]. rewrite IE, IP. reflexivity.
      * rewrite !leaf_guard_S. cbn [with_erase lo_bpos]. rewrite !EG. cbn [bind]. rewrite EP, EP2. cbn [bind]. rewrite EC. cbn [bind]. exact IG.
Qed.

Lemma t_alike_e t es k p : tinv t es ->
  (forall j l, find_leaf O (th t) (tdepth t) (troot t) k = Ok j -> hl (th t) j = Some l -> lo_erase O l k = e l p /\ forall es, lrep l es -> In p (keys es)) ->
  t_erase N M O t k = t_erase N M O' t p /\ path_ok N M O t (tdepth t) (troot t) k = path_ok N M O' t (tdepth t) (troot t) p /\
  leaf_guard M O (rm_ok M O) (th t) (tdepth t) (troot t) k = leaf_guard M O' (rm_ok M O') (th t) (tdepth t) (troot t) p.
Proof.
  intros (g & Eg & W & I & <-) HL. destruct t as [h x d]. cbn [troot tdepth th] in *. subst x. unfold t_erase. cbn [troot tdepth th]. destruct d as [|d].
  - split; [|split; reflexivity]. destruct (wf0_leaf W) as (j & es & -> & Ss & Fs & Cs). cbn [gid] in *. destruct (inv_GL I) as (l & El & Hl & _).
    destruct (HL j l eq_refl El) as [E _]. unfold erase_leaf, getl. rewrite El. cbn [of_opt bind]. now rewrite E.
  - destruct (wfS_branch W) as (j & ks & cs & -> & Cs & KK). cbn [gid rmin] in *.
    apply (@alike_e d (Tree h j (S d)) [] j ks cs [] 1 None None k p W ltac:(split; exact Logic.I) I HL); cbn [tdepth]; lia.
Qed.
End Alike.

(** An erase that goes well in the leaf: the two conditions decide. *)
Section Step.
Variables (L V : Type) (N M : nat) (O : leafops L V).
Variable lrep : L -> list (Z * V) -> Prop.
Variable lhint : L -> list (Z * V) -> Z -> Prop.
Variables minL minB : nat.
Variable kok : Z -> Prop.
Hypothesis LL : leaf_laws O M minL kok lrep.
Hypothesis EL : erase_core O M lrep lhint (fun _ _ _ => True).
Hypothesis DA : lo_del_after O = true.
Hypothesis HM : 1 <= M.
Hypothesis HmL : minL <= (M + 1) / 2.
Hypothesis HmL1 : 1 <= minL.
Hypothesis HB : minB <= (N + 1) / 2 - 1.
Hypothesis HB2 : 2 <= minB.
Notation tinv := (tinv N M lrep minL minB).
Let noguard (h : heap L) (i p c : nat) : res bool := UB.
Lemma noguard_s : forall h i p c, noguard h i p c = Ok true -> good M (nofree O) (fun _ _ _ => True) h i p c.
Proof. discriminate. Qed.
Notation RG := (@rm_good _ _ M O (fun _ _ _ => True) (fun _ _ _ => Logic.I)).

Lemma step_dec r t es k : tinv t es ->
  (forall j l es', find_leaf O (th t) (tdepth t) (troot t) k = Ok j -> hl (th t) j = Some l -> lrep l es' -> sorted es' -> get k es' = get k es ->
    exists l', lo_erase O l k = Ok (r, l') /\ lhint l' (del k es') k) ->
  exists g c, leaf_guard M O (rm_ok M O) (th t) (tdepth t) (troot t) k = Ok g /\ path_ok N M O t (tdepth t) (troot t) k = Ok c /\
    (Nat.even N = true -> c = true) /\
    if c then exists t', t_erase N M O t k = Ok (t', r) /\
                if g then tinv t' (del k es) else exists y, y <> k /\ get y es <> None /\ t_lookup O t' y = UB
    else t_erase N M O t k = UB.
Proof.
  intros I HG. destruct (tinv_tinvf I) as (f & If).
  destruct (@t_guard_decw L V N M O lrep lhint minL minB kok LL HM HmL1 HmL HB HB2 r t es k I HG) as (g & EG). exists g. destruct g.
  - assert (GO : (2 * ((N + 1) / 2) <= N /\ 2 <= minB) \/ path_ok N M O t (tdepth t) (troot t) k = Ok true \/ tdepth t <= 1 -> exists t', t_erase N M O t k = Ok (t', r) /\ tinv t' (del k es)).
    { intros HP. destruct (@t_erase_genf_w L V N M O lrep lhint (fun _ _ _ => True) minL minB kok LL EL HM HmL HB ltac:(lia) _ RG f r t es k If HG HP (or_intror EG)) as (t' & E & I').
      exists t'. split; [exact E|]. eapply tinvf_tinv; eauto. }
    assert (PX : exists c, path_ok N M O t (tdepth t) (troot t) k = Ok c /\ (c = false -> t_erase N M O t k = UB)).
    { clear GO If f. destruct I as (g & Eg & W & I & <-). destruct t as [h x d]. cbn [troot tdepth th] in *. subst x. destruct d as [|d].
      - exists true. split; [reflexivity|discriminate].
      - destruct (wfS_branch W) as (j & ks & cs & -> & Cs & KK). rewrite ents_GB in *. cbn [gid rmin] in *.
        destruct (@path_decw L V N M O lrep lhint (fun _ _ _ => True) minL minB kok LL EL HM HmL HB HB2 _ RG r d (Tree h j (S d)) [] j ks cs [] 1 None None k
          W ltac:(split; exact Logic.I) I HG ltac:(lia) (Nat.le_refl _) (or_intror eq_refl) (or_intror EG)) as (c & E & Hc & _).
        exists c. split; [exact E|exact Hc]. }
    destruct PX as (c & EC & HC). exists c. split; [exact EG|]. split; [exact EC|]. split.
    + intros HE. destruct (even_half HE) as [H1 _]. destruct c; [reflexivity|]. destruct GO as (t' & E & _); [left; lia|]. rewrite (HC eq_refl) in E. discriminate.
    + destruct c; [|now apply HC]. apply GO. right. left. exact EC.
  - destruct (@wrong_exactw L V N M O lrep lhint minL minB kok LL EL DA HM HmL HmL1 HB HB2 r t es k I HG EG) as (c & EC & HC).
    exists c. split; [exact EG|]. split; [exact EC|]. split.
    + intros HE. destruct (even_half HE) as [H1 _]. destruct c; [reflexivity|].
      destruct (@t_erase_genf_w L V N M (nofree O) lrep lhint (fun _ _ _ => True) minL minB kok (nofree_laws LL) (nofree_erase EL) HM HmL HB ltac:(lia) noguard noguard_s f r t es k If HG
        ltac:(left; lia) (or_introl (free_good (nofree_erase EL)))) as (t1 & X1 & X2).
      destruct (@damage_from L V N M O lrep minL minB kok LL DA HM HmL1 HmL HB HB2 r f t t1 es k If EG X1 X2) as (t2 & x & E & _). rewrite HC in E. discriminate.
    + destruct c; [|exact HC]. destruct HC as (t2 & y & X1 & X2 & X3 & X4). exists t2. split; [exact X1|]. exists y. auto.
Qed.
End Step.

(** ** The unsorted leaf *)
Section ULeaf.
Variables (V : Type) (t : ktype) (M : nat).
Notation leaf := (sleaf V).
Definition stale (l : leaf) (k p : Z) : bool :=
  match ul_pos (sk l) (sn l) k, uslot_kind l k, ulast l with
  | Ok i, Some true, Ok x => (i =? sn l) && (x =? p)%Z
  | _, _, _ => false
  end.
Definition ul_as (k p : Z) (l : leaf) (x : Z) : res (bool * leaf) := if (x =? p)%Z && stale l k p then ul_erase l k else ul_erase l x.

Lemma ul_stale l es k p : ul_rep t M l es -> stale l k p = true -> In p (keys es) /\ exists l', ul_erase l k = Ok (true, l') /\ ul_hint t M l' (del p es) p.
Proof.
  intros (HS & HK & xs & HP & HR) S. unfold stale in S. destruct (ul_pos (sk l) (sn l) k) as [i| |] eqn:EP; try discriminate S.
  unfold uslot_kind in S. destruct (aget (sk l) (sn l)) as [x| |] eqn:EX; try discriminate S. destruct (Z.eqb_spec x k) as [->|]; [|discriminate S].
  destruct (Nat.eqb_spec (sn l) 0) as [|N0]; [discriminate S|]. destruct (ulast l) as [y| |] eqn:EU; try discriminate S.
  apply andb_prop in S as [S1 S2]. apply Nat.eqb_eq in S1. apply Z.eqb_eq in S2. subst i y.
  pose proof HR as (Hn & HC & LK & LV & Hk & Hv).
  destruct (rev_case xs) as [->|(xs0 & [q w] & ->)]; [cbn in Hn; congruence|]. rewrite app_length in Hn, HC. cbn [length] in Hn, HC.
  destruct (@ua_key V M l xs0 q w [] (sn l - 1) HR ltac:(lia)) as [Ek Ev]. unfold ulast in EU. rewrite Ek in EU. injection EU as ->.
  assert (HL : sn l < M). { rewrite <- LK. unfold aget in EX. destruct (nth_error (sk l) (sn l)) eqn:En; [|discriminate]. apply nth_error_Some. congruence. }
  split. { eapply Permutation_in; [apply perm_keys; exact HP|]. rewrite keys_app. apply in_or_app. right. now left. }
  unfold ul_erase. rewrite EP. cbn [bind]. rewrite EX. cbn [bind]. rewrite Z.eqb_refl. destruct (Nat.eqb_spec (sn l) 0) as [|_]; [contradiction|].
  destruct (Nat.eqb_spec (sn l) (sn l - 1)) as [|_]; [lia|]. rewrite Ek. cbn [bind]. rewrite Ev. cbn [bind].
  destruct (pre_set_end (i := sn l) p Hk) as (k1 & E1 & P1 & L1); [rewrite keys_length, app_length; cbn [length]; lia|rewrite keys_length, app_length; cbn [length]; lia|].
  destruct (pre_set_end (i := sn l) w Hv) as (v1 & E2 & P2 & L2); [rewrite vals_length, app_length; cbn [length]; lia|rewrite vals_length, app_length; cbn [length]; lia|].
  rewrite E1. cbn [bind]. rewrite E2. cbn [bind]. eexists. split; [reflexivity|].
  pose proof (del_perm HS HP) as PD. rewrite app_nil_r in PD.
  unfold ul_hint, ul_rep. split; [split; [now apply sorted_del|split]|].
  - rewrite Forall_forall in *. intros z Hz. apply HK. eapply del_in_keys; eauto.
  - exists xs0. split; [exact PD|]. unfold ua_rep. cbn [sn sk sv]. splits; try lia.
    + rewrite keys_app in P1. apply pre_app_l in P1. now apply pre_app_l in P1.
    + rewrite vals_app in P2. apply pre_app_l in P2. now apply pre_app_l in P2.
  - intros E. rewrite E in PD. apply Permutation_sym, Permutation_nil in PD. subst xs0. cbn [sk app keys map fst] in P1 |- *.
    destruct P1 as [R ->]. reflexivity.
Qed.

Lemma ul_as_core k p : erase_core (with_erase (un_ops V t M) (ul_as k p)) M (ul_rep (V := V) t M) (ul_hint t M) (fun _ _ _ => True).
Proof.
  destruct (ul_core V t M) as [C1 C2 C3 C4 C5 C6]. constructor; auto. cbn [with_erase lo_erase]. intros l es x Hl HG. unfold ul_as.
  destruct (Z.eqb_spec x p) as [->|]; [|apply C2; auto]. destruct (stale l k p) eqn:ES; [|apply C2; auto].
  cbn [andb]. apply (ul_stale Hl ES).
Qed.

Lemma uslot_law (l : leaf) es k : ul_rep t M l es -> get k es = None ->
  match uslot_kind l k with
  | Some false => ul_erase l k = Ok (false, l)
  | Some true => exists p, ulast l = Ok p /\ stale l k p = true
  | None => ul_erase l k = UB
  end.
Proof.
  intros (HS & HK & xs & HP & HR) G. pose proof HR as (Hn & HC & LK & LV & Hk & Hv).
  destruct (ua_split k HS HP) as [[_ NI]|(v & xs1 & xs2 & G' & _)]; [|congruence].
  pose proof (ul_pos_miss HR NI) as EP. rewrite <- Hn in EP. unfold stale. rewrite EP.
  unfold uslot_kind. unfold ul_erase. rewrite EP. cbn [bind]. destruct (aget (sk l) (sn l)) as [x| |] eqn:EX; cbn [bind]; auto.
  2:{ unfold aget in EX. destruct (nth_error _ _) as [[?|]|]; discriminate. }
  destruct (Z.eqb_spec x k) as [->|]; [|reflexivity]. destruct (Nat.eqb_spec (sn l) 0) as [|N0]; [reflexivity|].
  destruct (rev_case xs) as [->|(xs0 & [q w] & ->)]; [cbn in Hn; congruence|]. rewrite app_length in Hn. cbn [length] in Hn.
  destruct (@ua_key V M l xs0 q w [] (sn l - 1) HR ltac:(lia)) as [Ek Ev]. exists q. unfold ulast. rewrite Ek. split; [reflexivity|]. now rewrite Nat.eqb_refl, Z.eqb_refl.
Qed.
End ULeaf.

Section UAny.
Variables (V : Type) (ty : ktype) (N M : nat).
Hypothesis HM : 2 <= M.
Hypothesis Ht : (1 <= kt_bits ty <= 64)%Z.
Hypothesis HN : 5 <= N.
Notation O := (un_ops V ty M).
Notation tinv := (tinv N M (ul_rep (V := V) ty M) (M / 2) ((N + 1) / 2 - 1)).
Notation LL := (ul_laws V HM Ht).
Notation pok t k := (path_ok N M O t (tdepth t) (troot t) k).
Notation gok t k := (leaf_guard M O (rm_ok M O) (th t) (tdepth t) (troot t) k).

Lemma un_erase_any t es k : tinv t es -> exists j l, find_leaf O (th t) (tdepth t) (troot t) k = Ok j /\ hl (th t) j = Some l /\
  match ukind l (fun x => get x es) k with
  | None => t_erase N M O t k = UB
  | Some r => exists g c m, gok t k = Ok g /\ pok t k = Ok c /\ (Nat.even N = true -> c = true) /\ takes l (fun x => get x es) k r m /\
      if c then exists t', t_erase N M O t k = Ok (t', r) /\
                  if g then exists es', tinv t' es' /\ forall x, get x es' = m x else exists y, m y <> None /\ t_lookup O t' y = UB
      else t_erase N M O t k = UB
  end.
Proof.
  intros I.
  assert (A1 : 1 <= M) by lia. assert (A2 : M / 2 <= (M + 1) / 2) by lia.
  assert (A5 : 2 <= (N + 1) / 2 - 1) by lia. assert (A6 : 1 <= M / 2) by lia.
  assert (SS : sorted es) by (eapply tinv_sorted; eauto).
  destruct (@t_leaf _ _ N M O (ul_rep ty M) (M / 2) ((N + 1) / 2 - 1) _ LL A1 A2 (Nat.le_refl _) A5 t es k I) as (j & l & LA & e & LB & EF & El & Hl & EE & Hlt & Hgt & H0).
  exists j, l. split; [exact EF|]. split; [exact El|]. unfold ukind.
  assert (Ge : get k es = get k e) by (rewrite EE, get_app_lt, get_app_gt by assumption; reflexivity).
  assert (DL : forall p x, get x (del p es) = m_del (fun x => get x es) p x) by (intros p x; rewrite get_del by exact SS; unfold m_del; destruct (x =? p)%Z; auto).
  destruct (get k es) as [v|] eqn:G.
  { destruct (@step_dec _ V N M O _ _ (M / 2) ((N + 1) / 2 - 1) _ LL (ul_core V ty M) eq_refl A1 A2 A6 (Nat.le_refl _) A5 true t es k I) as (g & c & EG & EC & HC & HR).
    { intros j' l' es' _ _ Hl' _ E. apply (law_erase (ul_core V ty M) Hl'). rewrite E, G. discriminate. }
    exists g, c, (m_del (fun x => get x es) k). split; [exact EG|]. split; [exact EC|]. split; [exact HC|]. split.
    { exists k. rewrite G. split; [discriminate|]. auto. }
    destruct c; [|exact HR]. destruct HR as (t' & ET & HR). exists t'. split; [exact ET|]. destruct g.
    - exists (del k es). split; [exact HR|apply DL].
    - destruct HR as (y & Y1 & Y2 & Y3). exists y. split; [|exact Y3]. unfold m_del. destruct (Z.eqb_spec y k); [contradiction|exact Y2]. }
  symmetry in Ge. pose proof (uslot_law Hl Ge) as KE. destruct (uslot_kind l k) as [[|]|] eqn:EK.
  - destruct KE as (p & EU & ES). destruct (ul_stale Hl ES) as [Hp _].
    assert (Hin : In p (keys es)) by (rewrite EE, !keys_app; rewrite !in_app_iff; auto).
    destruct (@t_alike_e _ _ N M O (ul_as k p) _ _ (M / 2) ((N + 1) / 2 - 1) _ LL (ul_as_core V ty M k p) eq_refl A1 A2 A6 (Nat.le_refl _) A5 t es k p I) as (X1 & X2 & X3).
    { intros j' l' EF' El'. rewrite EF in EF'. injection EF' as <-. rewrite El in El'. injection El' as <-. split.
      - unfold ul_as. rewrite Z.eqb_refl, ES. reflexivity.
      - intros es' Hl'. exact (proj1 (ul_stale Hl' ES)). }
    rewrite X1, X2, X3.
    destruct (@step_dec _ V N M (with_erase O (ul_as k p)) _ _ (M / 2) ((N + 1) / 2 - 1) _ (with_laws (ul_as k p) LL) (ul_as_core V ty M k p) eq_refl A1 A2 A6 (Nat.le_refl _) A5 true t es p I)
      as (g & c & EG & EC & HC & HR).
    { intros j' l' es' _ _ Hl' _ E. apply (law_erase (ul_as_core V ty M k p) Hl'). rewrite E. now apply key_get. }
    exists g, c, (m_del (fun x => get x es) p). split; [exact EG|]. split; [exact EC|]. split; [exact HC|]. split.
    { exists p. rewrite G. split; [now apply key_get|]. auto. }
    destruct c; [|exact HR]. destruct HR as (t' & ET & HR). exists t'. split; [exact ET|]. destruct g.
    + exists (del p es). split; [exact HR|apply DL].
    + destruct HR as (y & Y1 & Y2 & Y3). exists y. split; [|exact Y3]. unfold m_del. destruct (Z.eqb_spec y p); [contradiction|exact Y2].
  - destruct e as [|[x w] e].
    + exists true, true, (fun x => get x es). specialize (H0 eq_refl A6). destruct I as (g & Eg & W & I & <-). destruct t as [h r d]. cbn [troot tdepth th] in *. subst d r.
      split; [reflexivity|]. split; [reflexivity|]. split; [reflexivity|]. split; [cbn; auto|].
      destruct (@wf0_leaf V N M _ _ _ _ _ _ W) as (j' & es & -> & Ss & Fs & Cs). cbn [gid find_leaf] in *. injection EF as <-.
      unfold t_erase. cbn [troot tdepth th]. unfold erase_leaf, getl. rewrite El. cbn [of_opt bind]. change (lo_erase O l k) with (ul_erase l k). rewrite KE. cbn [bind fst snd].
      eexists. split; [reflexivity|]. exists (ents [GL j' es]). split; [|reflexivity]. rewrite ents_GL in *. assert (Hl' : ul_rep ty M l es).
      { destruct (inv_GL I) as (l0 & El0 & Hl0 & _). rewrite El in El0. injection El0 as <-. exact Hl0. }
      exists (GL j' es). cbn [troot tdepth th gid]. splits; auto; [exact (uo_inv (set_leaf_upd I Hl'))|now rewrite ents_GL].
    + destruct (@step_dec _ V N M O _ _ (M / 2) ((N + 1) / 2 - 1) _ LL (ul_core V ty M) eq_refl A1 A2 A6 (Nat.le_refl _) A5 false t es k I) as (g & c & EG & EC & HC & HR).
      { intros j' l' e' EF' El' He' _ Ge'. rewrite G in Ge'.
        rewrite EF in EF'. injection EF' as <-. rewrite El in El'. injection El' as <-. exists l. split; [exact KE|]. rewrite (del_none Ge'). split; [exact He'|]. intros ->.
        destruct Hl as (_ & _ & xs & P1 & Q1 & _), He' as (_ & _ & ys & P2 & R1 & _). apply Permutation_length in P1, P2. cbn [length] in *. congruence. }
      exists g, c, (fun x => get x es). split; [exact EG|]. split; [exact EC|]. split; [exact HC|]. split; [cbn; auto|].
      destruct c; [|exact HR]. destruct HR as (t' & ET & HR). exists t'. split; [exact ET|]. destruct g.
      * exists (del k es). split; [exact HR|]. now rewrite (del_none G).
      * destruct HR as (y & Y1 & Y2 & Y3). exists y. auto.
  - apply (@t_ub _ _ N M O (ul_rep ty M) (M / 2) ((N + 1) / 2 - 1) _ LL t es k I). intros j' l' EF' El'. rewrite EF in EF'. injection EF' as <-. rewrite El in El'. injection El' as <-. exact KE.
Qed.

Lemma takes_ext l (m1 m2 : amap V) k r m' : (forall x, m1 x = m2 x) -> takes l m1 k r m' -> takes l m2 k r m'.
Proof.
  clear. intros E. unfold takes. destruct r.
  - intros (p & H1 & H2 & H3). exists p. rewrite <- E. rewrite <- (E k). split; [exact H1|]. split; [exact H2|]. intros x. rewrite H3. unfold m_del. now rewrite E.
  - intros H x. now rewrite H.
Qed.

Lemma un_run_any os : forall t es m, tinv t es -> (forall x, get x es = m x) -> Forall (op_in (kt_in ty)) os -> unspoilt N M O t (map bop_of os) = true ->
  t_run N M O t (map bop_of os) = UB \/
  exists t' es' m', t_run N M O t (map bop_of os) = Ok t' /\ tinv t' es' /\ (forall x, get x es' = m' x) /\ loses m os m'.
Proof.
  assert (HN2 : 2 <= N) by lia.
  induction os as [|o os IH]; intros t es m I E FK US; cbn [map t_run].
  - right. exists t, es, m. repeat (split; auto). constructor. auto.
  - inversion FK as [|? ? Ko FK']; subst. cbn [map unspoilt] in US. apply andb_prop in US as [UG US].
    assert (SS : sorted es) by (eapply tinv_sorted; eauto).
    assert (STEP : forall t1 es1 m1, t_step N M O t (bop_of o) = Ok t1 -> tinv t1 es1 -> (forall x, get x es1 = m1 x) -> (forall m', loses m1 os m' -> loses m (o :: os) m') ->
      (do t' <- t_step N M O t (bop_of o); t_run N M O t' (map bop_of os)) = UB \/
      exists t' es' m', (do t' <- t_step N M O t (bop_of o); t_run N M O t' (map bop_of os)) = Ok t' /\ tinv t' es' /\ (forall x, get x es' = m' x) /\ loses m (o :: os) m').
    { intros t1 es1 m1 ES I1 E1 HA. rewrite ES in US |- *. cbn [bind]. destruct (IH t1 es1 m1 I1 E1 FK' US) as [U|(t' & es' & m' & X1 & X2 & X3 & X4)]; [left; exact U|].
      right. exists t', es', m'. split; [exact X1|]. split; [exact X2|]. split; [exact X3|]. now apply HA. }
    destruct o as [k v|k]; cbn [bop_of] in *.
    + cbn [op_in] in Ko. destruct (t_insert_ok LL HN2 (Nat.le_refl _) (k := k) v Ko I) as (t1 & E1 & I1).
      apply (STEP t1 (ins k v es) (m_put m k v)); [exact E1|exact I1| |intros; now constructor]. intros x. rewrite get_ins by exact SS. unfold m_put. destruct (x =? k)%Z; auto.
    + destruct (@un_erase_any t es k I) as (j & l & _ & _ & HK). unfold ukind in HK.
      assert (ET : t_step N M O t (BErase _ k) = (do r <- t_erase N M O t k; Ok (fst r))) by reflexivity.
      destruct (if get k es then Some true else uslot_kind l k) as [r|] eqn:EK.
      2:{ left. cbn [t_step]. rewrite HK. reflexivity. }
      destruct HK as (g & c & m1 & EG & EC & _ & HT & HK). destruct c.
      2:{ left. cbn [t_step]. rewrite HK. reflexivity. }
      destruct HK as (t1 & E1 & HK). rewrite EG in UG. destruct g; [|discriminate UG]. destruct HK as (es1 & I1 & G1).
      apply (STEP t1 es1 m1); [rewrite ET, E1; reflexivity|exact I1|exact G1|].
      intros m' HA. unfold takes in HT.
      assert (EXT : forall ma mb (os' : list (mop V)) mc, (forall x, ma x = mb x) -> loses ma os' mc -> loses mb os' mc).
      { clear. intros ma mb os' mc H HA. revert mb H. induction HA as [ma mc H0|ma k v os mc HA IH|ma k os mc H0 HA IH|ma k os mc H0 HA IH|ma k p os mc H0 H1 HA IH]; intros mb H.
        - apply loses_nil. intros x. now rewrite H0.
        - apply loses_ins. apply IH. intros x. unfold m_put. destruct (x =? k)%Z; auto.
        - apply loses_del; [now rewrite <- H|]. apply IH. intros x. unfold m_del. destruct (x =? k)%Z; auto.
        - apply loses_keep; [now rewrite <- H|]. auto.
        - apply loses_take with p; [now rewrite <- H|now rewrite <- H|]. apply IH. intros x. unfold m_del. destruct (x =? p)%Z; auto. }
      assert (DE : forall p x, m_del (fun x => get x es) p x = m_del m p x) by (intros p x; unfold m_del; destruct (x =? p)%Z; auto).
      destruct (get k es) as [v|] eqn:G.
      * injection EK as <-. destruct HT as (p & H1 & -> & H3). apply loses_del; [rewrite <- E; congruence|]. eapply EXT; [|exact HA]. intros x. now rewrite H3, DE.
      * assert (Em : m k = None) by (now rewrite <- E). destruct r.
        -- destruct HT as (p & H1 & _ & H3). apply loses_take with p; [exact Em|now rewrite <- E|]. eapply EXT; [|exact HA]. intros x. now rewrite H3, DE.
        -- apply loses_keep; [exact Em|]. eapply EXT; [|exact HA]. intros x. now rewrite HT, E.
Qed.

Lemma un_any os : Forall (op_in (kt_in ty)) os -> unspoilt N M O (t_new O) (map bop_of os) = true ->
  t_run N M O (t_new O) (map bop_of os) = UB \/
  exists t m, t_run N M O (t_new O) (map bop_of os) = Ok t /\ loses m_empty os m /\ (forall x, t_lookup O t x = Ok (m x)) /\
  forall k, exists j l, find_leaf O (th t) (tdepth t) (troot t) k = Ok j /\ hl (th t) j = Some l /\
  match ukind l m k with
  | None => t_erase N M O t k = UB
  | Some r => exists g c m', gok t k = Ok g /\ pok t k = Ok c /\ (Nat.even N = true -> c = true) /\ takes l m k r m' /\
      if c then exists t', t_erase N M O t k = Ok (t', r) /\
                  if g then forall x, t_lookup O t' x = Ok (m' x) else exists y, m' y <> None /\ t_lookup O t' y = UB
      else t_erase N M O t k = UB
  end.
Proof.
  intros FK US. destruct (@un_run_any os (t_new O) [] m_empty) as [U|(t & es & m & E & I & G & A)]; auto.
  - eapply tinv_new; [exact LL|lia..].
  - right. exists t, m. split; [exact E|]. split; [exact A|]. split; [intros x; rewrite (t_lookup_ok LL x I); now rewrite G|].
    intros k. destruct (@un_erase_any t es k I) as (j & l & EF & El & HK). exists j, l. split; [exact EF|]. split; [exact El|].
    unfold ukind in *. rewrite <- G. destruct (if get k es then Some true else uslot_kind l k) as [r|]; [|exact HK].
    destruct HK as (g & c & m' & EG & EC & HC & HT & HK). exists g, c, m'. split; [exact EG|]. split; [exact EC|]. split; [exact HC|]. split; [exact (takes_ext G HT)|].
    destruct c; [|exact HK]. destruct HK as (t' & E' & HK). exists t'. split; [exact E'|]. destruct g; [|exact HK].
    destruct HK as (es' & I' & G'). intros x. rewrite (t_lookup_ok LL x I'). now rewrite G'.
Qed.
End UAny.

Lemma loses_hist {V} os : forall (m m' : amap V), loses m os m' -> hist_ok m os -> forall x, m' x = fold_left (@m_step V) os m x.
Proof.
  induction os as [|o os IH]; intros m m' A F x; inversion A; subst; cbn [fold_left]; auto; destruct F as [F1 F2]; cbn [op_ok] in F1; try contradiction;
    try (apply IH; auto; fail).
Qed.
