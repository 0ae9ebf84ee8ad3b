(** Branch-node operations of [BTreeModel] on well-formed arrays. *)
From Verif Require Import Base ArrLemmas SortedList BTreeModel.
Open Scope nat_scope.

Section Branch.
Variables (L : Type) (N : nat).
Notation hp := (heap L).

(** Branch node [b] holds the separators [ks] and the child pointers [cs]. *)
Definition brep (b : branch) (ks : list Z) (cs : list nat) : Prop :=
  bn b = length ks /\ length (bk b) = N /\ length (bc b) = S N /\ pre (bk b) ks /\ pre (bc b) cs.

Lemma brep_key b ks cs i k : brep b ks cs -> nth_error ks i = Some k -> aget (bk b) i = Ok k.
Proof. intros (_ & _ & _ & H & _). now apply pre_get_nth. Qed.
Lemma brep_kid b ks cs i c : brep b ks cs -> nth_error cs i = Some c -> aget (bc b) i = Ok c.
Proof. intros (_ & _ & _ & _ & H). now apply pre_get_nth. Qed.
Lemma nth_error_mid {A} (a : list A) x b i : i = length a -> nth_error (a ++ x :: b) i = Some x.
Proof. intros ->. rewrite nth_error_app2 by lia. now rewrite Nat.sub_diag. Qed.

Lemma insert_entry_ok (h : hp) host b a bb ca c0 cb s l r :
  hb h host = Some b -> brep b (a ++ bb) (ca ++ c0 :: cb) ->
  length ca = length a -> length cb = length bb -> length (a ++ bb) < N ->
  exists b', insert_entry h host (length a) (Split s l r) = Ok (set_branch h host b') /\
             brep b' (a ++ s :: bb) (ca ++ l :: r :: cb).
Proof.
  intros Hb (Hn & LK & LC & PK & PC) La Lb HL. unfold insert_entry, getb. rewrite Hb. cbn [of_opt bind].
  cbn [skey sleft sright]. rewrite Hn.
  destruct (Nat.ltb_spec (length a) (length (a ++ bb))) as [HP|HP].
  - destruct (@arr_insert Z (bk b) a bb s (length (a ++ bb)) (length a)) as (k1 & k2 & E1 & E2 & P2 & L2); auto; try lia.
    destruct (@arr_insert nat (bc b) ca (c0 :: cb) l (S (length (a ++ bb))) (length a)) as (c1 & c2 & F1 & F2 & Q2 & M2); auto.
    { rewrite !app_length in *. simpl. lia. }
    { lia. }
    replace (S (length (a ++ bb)) - length a) with (S (length (a ++ bb) - length a)) in F1 by lia.
    cbn [for_down] in F1.
    replace (S (length (a ++ bb)) - 1) with (length (a ++ bb)) in F1 by lia.
    rewrite Nat.add_1_r.
    destruct (aget (bc b) (length (a ++ bb))) as [x| |]; cbn [bind] in *; try discriminate.
    destruct (aset (bc b) (S (length (a ++ bb))) x) as [c0'| |]; cbn [bind] in *; try discriminate.
    cbn [pred] in F1. rewrite (for_down_pair E1 F1). cbn [bind fst snd]. rewrite E2. cbn [bind]. rewrite F2. cbn [bind].
    replace (ca ++ l :: c0 :: cb) with ((ca ++ [l]) ++ c0 :: cb) in Q2 by (rewrite <- app_assoc; reflexivity).
    destruct (@pre_set nat c2 (ca ++ [l]) c0 cb (length a + 1) r) as (c3 & E3 & P3 & L3); auto.
    { rewrite app_length; simpl; lia. }
    rewrite E3. cbn [bind]. eexists. split; [reflexivity|].
    rewrite <- app_assoc in P3. cbn [app] in P3.
    unfold brep; cbn [bn bk bc]. rewrite !app_length in *. cbn [length]. splits; auto; lia.
  - rewrite app_length in HP, HL. destruct bb; [|simpl in HP; lia]. destruct cb; [|simpl in Lb; lia].
    rewrite app_nil_r in *. cbn [bind fst snd].
    destruct (@pre_set_end Z (bk b) a (length a) s) as (k1 & E1 & P1 & L1); auto; [simpl in HL; lia|].
    destruct (@pre_set nat (bc b) ca c0 [] (length a) l) as (c1 & F1 & Q1 & M1); auto.
    destruct (@pre_set_end nat c1 (ca ++ [l]) (length a + 1) r) as (c2 & F2 & Q2 & M2); auto.
    { rewrite app_length; simpl; lia. }
    { rewrite app_length; simpl in *; lia. }
    rewrite E1. cbn [bind]. rewrite F1. cbn [bind]. rewrite F2. cbn [bind].
    eexists. split; [reflexivity|]. rewrite <- app_assoc in Q2. cbn [app] in Q2.
    unfold brep; cbn [bn bk bc]. rewrite app_length. cbn [length]. splits; auto; lia.
Qed.

Lemma empty_brep : brep (empty_branch N) [] [].
Proof.
  unfold brep, empty_branch, anew; cbn [bn bk bc]. rewrite !repeat_length. splits; auto; eexists; reflexivity.
Qed.

Lemma split_branch_ok (h : hp) id b ks cs sk0 :
  hb h id = Some b -> brep b ks cs -> length ks = N -> length cs = S N -> 2 <= N ->
  exists km a sk bb ca cb b1 b2,
    nth_error ks ((N + 1) / 2) = Some km /\
    ks = a ++ sk :: bb /\ cs = ca ++ cb /\
    length a = (if (sk0 >? km)%Z then (N + 1) / 2 else (N + 1) / 2 - 1) /\
    length ca = S (length a) /\
    brep b1 a ca /\ brep b2 bb cb /\
    split_branch N h id sk0 =
      Ok (set_branch (set_branch (snd (new_branch N h)) (hfresh h) b2) id b1, Split sk id (hfresh h)).
Proof.
  intros Hb (Hn & LK & LC & PK & PC) LN LCN HN. unfold split_branch, getb. rewrite Hb. cbn [of_opt bind].
  destruct (nth_error ks ((N + 1) / 2)) as [km|] eqn:Ekm; [|apply nth_error_None in Ekm; lia].
  rewrite (pre_get_nth PK Ekm). cbn [bind].
  set (middle := if (sk0 >? km)%Z then S ((N + 1) / 2) else (N + 1) / 2).
  assert (Hmid : 1 <= middle <= N) by (unfold middle; destruct (sk0 >? km)%Z; lia).
  rewrite Hn. destruct (Nat.ltb_spec (length ks) middle) as [?|_]; [lia|].
  destruct (@split_at _ ks (middle - 1)) as (a & q & Eq & La); [lia|].
  destruct q as [|sk bb].
  { exfalso. apply (f_equal (@length _)) in Eq. rewrite app_length in Eq. simpl in Eq. lia. }
  assert (Lbb : length bb = N - middle).
  { apply (f_equal (@length _)) in Eq. rewrite app_length in Eq. simpl in Eq. lia. }
  destruct (@split_at _ cs middle) as (ca & cb & Ec & Lca); [lia|].
  assert (Lcb : length cb = S (N - middle)).
  { apply (f_equal (@length _)) in Ec. rewrite app_length in Ec. lia. }
  destruct (exists_last (l := cb)) as (cb' & clast & Ecb); [destruct cb; [discriminate Lcb|discriminate]|].
  assert (Lcb' : length cb' = N - middle) by (rewrite Ecb, app_length in Lcb; simpl in Lcb; lia).
  subst ks cs. exists km, a, sk, bb, ca, cb.
  unfold new_branch. cbn [snd].
  destruct (@arr_copy Z (fun i => i) (fun i => middle + i) (bk b) (bk (empty_branch N)) (a ++ [sk]) bb [] (N - middle))
    as (k1 & E1 & P1 & L1); auto.
  { rewrite <- app_assoc. exact PK. }
  { apply empty_brep. }
  { unfold empty_branch, anew. cbn [bk]. rewrite repeat_length. simpl. lia. }
  { intros. rewrite app_length. simpl. lia. }
  destruct (@arr_copy nat (fun i => i) (fun i => middle + i) (bc b) (bc (empty_branch N)) ca cb' [] (N - middle))
    as (c1 & F1 & Q1 & M1); auto.
  { rewrite Ecb, app_assoc in PC. eapply pre_app_l; eauto. }
  { apply empty_brep. }
  { unfold empty_branch, anew. cbn [bc]. rewrite repeat_length. simpl. lia. }
  rewrite LN. rewrite (for_up_pair E1 F1). cbn [bind fst snd app] in *.
  assert (El : aget (bc b) N = Ok clast).
  { rewrite Ecb, app_assoc in PC. eapply pre_get; [exact PC|]. rewrite app_length. lia. }
  rewrite El. cbn [bind].
  unfold empty_branch, anew in L1, M1. cbn [bk bc] in L1, M1. rewrite repeat_length in L1, M1.
  destruct (@pre_set_end nat c1 cb' (N - middle) clast) as (c2 & F2 & Q2 & M2); auto; [lia|].
  rewrite F2. cbn [bind].
  assert (Es : aget (bk b) (middle - 1) = Ok sk) by (eapply pre_get; eauto).
  rewrite Es. cbn [bind].
  eexists (Branch (middle - 1) (bk b) (bc b)), (Branch (N - middle) k1 c2).
  unfold brep; cbn [bn bk bc]. splits; auto; try lia.
  - rewrite La. unfold middle. destruct (sk0 >? km)%Z; lia.
  - eapply pre_app_l; eauto.
  - eapply pre_app_l; eauto.
  - now rewrite Ecb.
Qed.

Lemma merge_branch_ok (h : hp) sib node sb nb ks1 cs1 ks2 cs2 key :
  hb h sib = Some sb -> hb h node = Some nb -> brep sb ks1 cs1 -> brep nb ks2 cs2 ->
  length cs1 = S (length ks1) -> length cs2 = S (length ks2) ->
  length ks1 + 1 + length ks2 <= N ->
  exists b', merge_branch h sib key node = Ok (set_branch h sib b') /\
             brep b' (ks1 ++ key :: ks2) (cs1 ++ cs2).
Proof.
  intros H1 H2 (N1 & K1 & C1 & PK1 & PC1) (N2 & K2 & C2 & PK2 & PC2) L1 L2 HL.
  unfold merge_branch, getb. rewrite H1, H2. cbn [of_opt bind].
  destruct cs2 as [|c0 cs2]; [discriminate L2|]. cbn [length] in L2.
  destruct (@pre_set_end Z (bk sb) ks1 (bn sb) key) as (k0 & E0 & P0 & LL0); auto; [lia|].
  rewrite E0. cbn [bind]. rewrite (@pre_get nat (bc nb) [] c0 cs2 0 PC2 eq_refl). cbn [bind].
  destruct (@pre_set_end nat (bc sb) cs1 (bn sb + 1) c0) as (c0' & F0 & Q0 & M0); auto; [lia|lia|].
  rewrite F0. cbn [bind].
  destruct (@arr_copy Z (fun i => bn sb + i + 1) (fun i => i) (bk nb) k0 [] ks2 (ks1 ++ [key]) (bn nb))
    as (k1 & E1 & P1 & LL1); auto; try (intros; rewrite ?app_length; cbn [length]; lia).
  destruct (@arr_copy nat (fun i => bn sb + i + 2) (fun i => i + 1) (bc nb) c0' [c0] cs2 (cs1 ++ [c0]) (bn nb))
    as (c1 & F1 & Q1 & M1); auto; try (intros; rewrite ?app_length; cbn [length]; lia).
  rewrite (for_up_pair E1 F1). cbn [bind fst snd]. eexists. split; [reflexivity|].
  rewrite <- app_assoc in P1, Q1. cbn [app] in P1, Q1.
  unfold brep; cbn [bn bk bc]. rewrite app_length. cbn [length]. splits; auto; lia.
Qed.

Lemma remove_child_ok (h : hp) id b a k bb ca c1 c2 cb pos survivor :
  hb h id = Some b -> brep b (a ++ k :: bb) (ca ++ c1 :: c2 :: cb) ->
  length ca = length a -> length cb = length bb ->
  (if 0 <? pos then pos - 1 else pos) = length a ->
  exists b', remove_child h id pos survivor = Ok (set_branch h id b') /\
             brep b' (a ++ bb) (ca ++ survivor :: cb).
Proof.
  intros Hb (Hn & LK & LC & PK & PC) La Lb Hp. unfold remove_child, getb. rewrite Hb. cbn [of_opt bind].
  rewrite Hp, Hn.
  destruct (@arr_remove Z (bk b) a k bb (length (a ++ k :: bb)) (length a)) as (k1 & E1 & P1 & L1 & _); auto.
  assert (PC' : pre (bc b) ((ca ++ [c1]) ++ c2 :: cb)) by (rewrite <- app_assoc; exact PC).
  destruct (@arr_remove nat (bc b) (ca ++ [c1]) c2 cb (S (length (a ++ k :: bb))) (S (length a))) as (x1 & F1 & Q1 & M1 & _); auto.
  { rewrite app_length; simpl; lia. }
  { rewrite !app_length; simpl; lia. }
  assert (F1' : for_up (length a) (length (a ++ k :: bb) - 1 - length a)
     (fun i s => do x <- aget s (i + 2); aset s (i + 1) x) (bc b) = Ok x1).
  { rewrite <- F1. replace (S (length (a ++ k :: bb)) - 1 - S (length a)) with (length (a ++ k :: bb) - 1 - length a) by lia.
    clear. generalize (length (a ++ k :: bb) - 1 - length a) as n. generalize (length a) as lo. generalize (bc b) as s.
    intros s lo n; revert lo s. induction n as [|n IH]; intros lo s; [reflexivity|].
    cbn [for_up]. replace (S lo + 1) with (lo + 2) by lia. rewrite Nat.add_1_r.
    destruct (aget s (lo + 2)) as [x| |]; cbn [bind]; auto.
    destruct (aset s (S lo) x) as [s'| |]; cbn [bind]; auto. }
  rewrite (for_up_pair E1 F1'). cbn [bind fst snd].
  rewrite <- app_assoc in Q1. cbn [app] in Q1.
  destruct (@pre_set nat x1 ca c1 cb (length a) survivor) as (x2 & F2 & Q2 & M2); auto.
  rewrite F2. cbn [bind]. eexists. split; [reflexivity|].
  unfold brep; cbn [bn bk bc]. rewrite !app_length in *. cbn [length]. splits; auto; lia.
Qed.

Lemma remove_branch_child_ok (h : hp) id b a k bb ca c1 c2 cb ppos pos :
  hb h id = Some b -> brep b (a ++ k :: bb) (ca ++ c1 :: c2 :: cb) ->
  length ca = length a -> length cb = length bb ->
  ppos = length a -> (if pos =? 0 then 1 else pos) = S (length a) ->
  exists b', remove_branch_child h id ppos pos = Ok (set_branch h id b') /\
             brep b' (a ++ bb) (ca ++ c1 :: cb).
Proof.
  intros Hb (Hn & LK & LC & PK & PC) La Lb -> Hp. unfold remove_branch_child, getb. rewrite Hb. cbn [of_opt bind].
  rewrite Hp, Hn.
  destruct (@arr_remove Z (bk b) a k bb (length (a ++ k :: bb)) (length a)) as (k1 & E1 & P1 & L1 & _); auto.
  assert (PC' : pre (bc b) ((ca ++ [c1]) ++ c2 :: cb)) by (rewrite <- app_assoc; exact PC).
  destruct (@arr_remove nat (bc b) (ca ++ [c1]) c2 cb (S (length (a ++ k :: bb))) (S (length a))) as (x1 & F1 & Q1 & M1 & _); auto.
  { rewrite app_length; simpl; lia. }
  { rewrite !app_length; simpl; lia. }
  replace (S (length (a ++ k :: bb)) - 1 - S (length a)) with (length (a ++ k :: bb) - S (length a)) in F1 by lia.
  rewrite E1. cbn [bind]. rewrite F1. cbn [bind].
  rewrite <- app_assoc in Q1. cbn [app] in Q1.
  eexists. split; [reflexivity|].
  unfold brep; cbn [bn bk bc]. rewrite !app_length in *. cbn [length]. splits; auto; lia.
Qed.

Lemma balance_branch_left_ok (h : hp) donor recv parent db rb pb dk dc rk rc pa k pbb pcs :
  hb h donor = Some db -> hb h recv = Some rb -> hb h parent = Some pb ->
  brep db dk dc -> brep rb rk rc -> brep pb (pa ++ k :: pbb) pcs ->
  length dc = S (length dk) -> length rc = S (length rk) ->
  rk <> [] -> length rk < length dk ->
  (forall x y, In x dk -> In y rk -> (x < y)%Z) ->
  exists d1 s d2 e1 e2 db' rb' pb',
    balance_branch h donor recv parent (length pa) =
      Ok (set_branch (set_branch (set_branch h recv rb') donor db') parent pb') /\
    dk = d1 ++ s :: d2 /\ dc = e1 ++ e2 /\ length e1 = S (length d1) /\
    length d1 = (length dk + length rk) / 2 /\
    brep db' d1 e1 /\ brep rb' (d2 ++ k :: rk) (e2 ++ rc) /\ brep pb' (pa ++ s :: pbb) pcs.
Proof.
  intros H1 H2 H3 HD HR HP LD LR NE HL HO.
  pose proof HD as (ND & KD & CD & PKD & PCD). pose proof HR as (NR & KR & CR & PKR & PCR).
  pose proof HP as (NP & KP & CP & PKP & PCP).
  pose proof (pre_length PKD) as LKD. rewrite KD in LKD.
  unfold balance_branch, getb. rewrite H1, H2, H3. cbn [of_opt bind]. rewrite ND, NR.
  set (bal := (length dk + length rk) / 2).
  assert (Hbal : bal < length dk) by (unfold bal; lia).
  destruct (Nat.ltb_spec (length dk) bal) as [?|_]; [lia|].
  set (mv := length dk - bal). destruct (Nat.eqb_spec mv 0) as [?|_]; [lia|].
  assert (exists d0 dkt, dk = d0 :: dkt) as (d0 & dkt & Edk).
  { destruct dk; [simpl in HL; lia|eauto]. }
  assert (exists r0 rkt, rk = r0 :: rkt) as (r0 & rkt & Erk).
  { destruct rk; [congruence|eauto]. }
  rewrite (@pre_get Z (bk db) [] d0 dkt 0) by (simpl; rewrite <- ?Edk; auto). cbn [bind].
  rewrite (@pre_get Z (bk rb) [] r0 rkt 0) by (simpl; rewrite <- ?Erk; auto). cbn [bind].
  destruct (Z.ltb_spec d0 r0) as [_|?].
  2:{ assert (d0 < r0)%Z by (apply HO; [rewrite Edk|rewrite Erk]; simpl; auto). lia. }
  destruct (@split_at _ dk bal) as (d1 & q & Eq & Ld1); [lia|].
  assert (Lq : length q = mv).
  { pose proof (f_equal (@length _) Eq) as X. rewrite app_length in X. unfold mv. lia. }
  destruct q as [|s d2]; [simpl in Lq; lia|]. cbn [length] in Lq.
  destruct (@split_at _ dc (S bal)) as (e1 & e2 & Ee & Le1); [lia|].
  assert (Le2 : length e2 = mv).
  { pose proof (f_equal (@length _) Ee) as X. rewrite app_length in X. unfold mv. lia. }
  exists d1, s, d2, e1, e2.
  destruct (@arr_room Z (bk rb) rk (length rk) mv) as (DK & RK & EK & LDK & LK0); auto; try lia.
  destruct (@arr_room nat (bc rb) rc (S (length rk)) mv) as (DC & RC & EC & LDC & LC0); auto; try lia.
  (* one unrolled step of the child loop *)
  cbn [for_down] in EC. rewrite Nat.sub_succ, Nat.sub_0_r in EC.
  replace (S (length rk) + mv - 1) with (length rk + mv) in EC by lia.
  destruct (aget (bc rb) (length rk)) as [x| |]; cbn [bind] in *; try discriminate.
  destruct (aset (bc rb) (length rk + mv) x) as [rc0| |]; cbn [bind] in *; try discriminate.
  cbn [pred] in EC. rewrite (for_down_pair EK EC). cbn [bind fst snd].
  replace (length dk - mv + 1) with (S bal) by (unfold mv; lia).
  replace (length dk - mv) with bal by (unfold mv; lia).
  rewrite (@arr_copy_front nat (fun i => i) (fun i => S bal + i) (bc db) _ e1 e2 DC (map Some rc ++ RC) mv);
    auto; try (intros; lia); try (now rewrite <- Ee).
  cbn [bind].
  destruct (@split_at _ DK (mv - 1)) as (DK1 & DK2 & EDK & LDK1); [lia|].
  assert (LDK2 : length DK2 = 1).
  { pose proof (f_equal (@length _) EDK) as X. rewrite app_length in X. lia. }
  destruct DK2 as [|z [|? ?]]; try discriminate LDK2. subst DK.
  rewrite (@arr_copy_front Z (fun i => i) (fun i => S bal + i) (bk db) _ (d1 ++ [s]) d2 DK1 (z :: map Some rk ++ RK) (mv - 1));
    auto; try (intros; rewrite ?app_length; cbn [length]; lia).
  2:{ rewrite <- app_assoc. simpl. now rewrite <- Eq. }
  2:{ now rewrite <- app_assoc. }
  cbn [bind].
  assert (EKp : aget (bk pb) (length pa) = Ok k) by (eapply pre_get; eauto). rewrite EKp. cbn [bind].
  rewrite aset_app by (rewrite map_length; lia). cbn [bind].
  assert (EDs : aget (bk db) bal = Ok s) by (eapply pre_get; [rewrite <- Eq; exact PKD|lia]). rewrite EDs. cbn [bind].
  destruct (@pre_set Z (bk pb) pa k pbb (length pa) s) as (pks & EP & PP & LP); auto.
  rewrite EP. cbn [bind].
  eexists _, _, _. split; [reflexivity|].
  repeat (rewrite ?app_length, ?map_length in LK0; cbn [length] in LK0).
  repeat (rewrite ?app_length, ?map_length in LC0).
  splits; auto; try lia; unfold brep; cbn [bn bk bc].
  - splits; auto; try lia.
    + eapply pre_app_l. rewrite <- Eq. exact PKD.
    + eapply pre_app_l. rewrite <- Ee. exact PCD.
  - rewrite !app_length. cbn [length]. splits; try lia.
    + repeat (rewrite ?app_length, ?map_length; cbn [length]). lia.
    + repeat (rewrite ?app_length, ?map_length; cbn [length]). lia.
    + exists RK. rewrite map_app, <- app_assoc. reflexivity.
    + exists RC. now rewrite map_app, <- app_assoc.
  - rewrite !app_length in *. cbn [length] in *. splits; auto; try lia.
Qed.

Lemma balance_branch_right_ok (h : hp) donor recv parent db rb pb dk dc rk rc pa k pbb pcs :
  hb h donor = Some db -> hb h recv = Some rb -> hb h parent = Some pb ->
  brep db dk dc -> brep rb rk rc -> brep pb (pa ++ k :: pbb) pcs ->
  length dc = S (length dk) -> length rc = S (length rk) ->
  rk <> [] -> length rk < length dk -> length rk < (N + 1) / 2 ->
  (forall x y, In x dk -> In y rk -> (y < x)%Z) ->
  exists d1 s d2 e1 e2 db' rb' pb',
    balance_branch h donor recv parent (length pa) =
      Ok (set_branch (set_branch (set_branch h recv rb') donor db') parent pb') /\
    dk = d1 ++ s :: d2 /\ dc = e1 ++ e2 /\ length e1 = S (length d1) /\
    length d2 = (length dk + length rk) / 2 /\
    brep db' d2 e2 /\ brep rb' (rk ++ k :: d1) (rc ++ e1) /\ brep pb' (pa ++ s :: pbb) pcs.
Proof.
  intros H1 H2 H3 HD HR HP LD LR NE HL HL2 HO.
  pose proof HD as (ND & KD & CD & PKD & PCD). pose proof HR as (NR & KR & CR & PKR & PCR).
  pose proof HP as (NP & KP & CP & PKP & PCP).
  pose proof (pre_length PKD) as LKD. rewrite KD in LKD.
  unfold balance_branch, getb. rewrite H1, H2, H3. cbn [of_opt bind]. rewrite ND, NR.
  set (bal := (length dk + length rk) / 2).
  assert (Hbal : bal < length dk) by (unfold bal; lia).
  destruct (Nat.ltb_spec (length dk) bal) as [?|_]; [lia|].
  set (mv := length dk - bal). destruct (Nat.eqb_spec mv 0) as [?|_]; [lia|].
  assert (exists d0 dkt, dk = d0 :: dkt) as (d0 & dkt & Edk).
  { destruct dk; [simpl in HL; lia|eauto]. }
  assert (exists r0 rkt, rk = r0 :: rkt) as (r0 & rkt & Erk).
  { destruct rk; [congruence|eauto]. }
  rewrite (@pre_get Z (bk db) [] d0 dkt 0) by (simpl; rewrite <- ?Edk; auto). cbn [bind].
  rewrite (@pre_get Z (bk rb) [] r0 rkt 0) by (simpl; rewrite <- ?Erk; auto). cbn [bind].
  destruct (Z.ltb_spec d0 r0) as [?|_].
  { assert (r0 < d0)%Z by (apply HO; [rewrite Edk|rewrite Erk]; simpl; auto). lia. }
  assert (Hroom : length rk + mv < N) by (assert (1 <= length rk) by (rewrite Erk; simpl; lia); unfold mv, bal; lia).
  destruct (@split_at _ dk (mv - 1)) as (d1 & q & Eq & Ld1); [lia|].
  assert (Lq : length q = S bal).
  { pose proof (f_equal (@length _) Eq) as X. rewrite app_length in X. unfold mv in *. lia. }
  destruct q as [|s d2]; [simpl in Lq; lia|]. cbn [length] in Lq.
  destruct (@split_at _ dc mv) as (e1 & e2 & Ee & Le1); [lia|].
  assert (Le2 : length e2 = S bal).
  { pose proof (f_equal (@length _) Ee) as X. rewrite app_length in X. unfold mv in *. lia. }
  exists d1, s, d2, e1, e2.
  destruct (exists_last (l := e2)) as (e2' & el & Ee2); [destruct e2; [discriminate Le2|discriminate]|].
  assert (Le2' : length e2' = bal) by (rewrite Ee2, app_length in Le2; simpl in Le2; lia).
  (* copy into the receiver: keys go one position behind, leaving room for the parent key *)
  destruct (@pre_set_end Z (bk rb) rk (length rk) k) as (rk0 & EK0 & PK0 & LK0); auto; [lia|].
  assert (EK1 : exists rk1 T, for_up 0 mv (fun i s => do x <- aget (bk db) i; aset s (length rk + 1 + i) x) (bk rb) = Ok rk1 /\
             length rk1 = N /\ exists z, rk1 = map Some rk ++ z :: map Some (d1 ++ [s]) ++ T).
  { destruct PKR as [R ER]. rewrite ER in KR. rewrite app_length, map_length in KR.
    destruct R as [|z R]; [simpl in KR; lia|]. cbn [length] in KR.
    destruct (@split_at _ R mv) as (D2 & D3 & ED & LD2); [lia|].
    destruct PKD as [RD ERD].
    exists (map Some rk ++ z :: map Some (d1 ++ [s]) ++ D3), D3. rewrite ER.
    replace (map Some rk ++ z :: R) with ((map Some rk ++ [z]) ++ D2 ++ D3)
      by (rewrite ED, <- app_assoc; reflexivity).
    rewrite (@for_up_copy Z (fun i => length rk + 1 + i) (fun i => i) 0 mv _ (d1 ++ [s]) [] (map Some d2 ++ RD)).
    - split; [now rewrite <- app_assoc|]. split; [|eauto].
      rewrite app_length, map_length. cbn [length]. rewrite app_length, map_length, app_length. cbn [length].
      apply (f_equal (@length _)) in ED. rewrite app_length in ED. lia.
    - rewrite ERD, Eq. cbn [app]. rewrite !map_app. simpl. now rewrite <- !app_assoc.
    - rewrite app_length. cbn [length]. lia.
    - lia.
    - intros; reflexivity.
    - intros. rewrite app_length, map_length. cbn [length]. lia. }
  destruct EK1 as (rk1 & T & EK1 & LK1 & z & Erk1).
  destruct (@arr_copy nat (fun i => length rk + 1 + i) (fun i => i) (bc db) (bc rb) [] e1 rc mv)
    as (rc1 & EC1 & PC1 & LC1); auto; try (intros; cbn [length]; lia).
  { eapply pre_app_l. simpl. rewrite <- Ee. exact PCD. }
  rewrite (for_up_pair EK1 EC1). cbn [bind fst snd].
  assert (EKp : aget (bk pb) (length pa) = Ok k) by (eapply pre_get; eauto). rewrite EKp. cbn [bind].
  rewrite Erk1, aset_app by (rewrite map_length; lia). cbn [bind].
  assert (EDs : aget (bk db) (mv - 1) = Ok s) by (eapply pre_get; [rewrite <- Eq; exact PKD|lia]). rewrite EDs. cbn [bind].
  replace (length dk - mv) with bal by (unfold mv; lia).
  destruct (@arr_drop Z (bk db) (d1 ++ [s]) d2 bal mv) as (dk1 & TK & EK2 & Edk1 & LK2 & _); auto; try lia.
  { rewrite <- app_assoc. simpl. now rewrite <- Eq. }
  { rewrite app_length; simpl; lia. }
  destruct (@arr_drop nat (bc db) e1 e2' bal mv) as (dc1 & TC & EC2 & Edc1 & LC2 & HT & _); auto; try lia.
  { rewrite Ee, Ee2, app_assoc in PCD. eapply pre_app_l; eauto. }
  rewrite (for_up_pair EK2 EC2). cbn [bind fst snd].
  assert (Elast : aget dc1 (length dk) = Ok el).
  { unfold aget. rewrite HT by (rewrite app_length; unfold mv in *; lia).
    destruct PCD as [RC ->]. rewrite Ee, Ee2. rewrite map_app, map_app, <- !app_assoc. cbn [map app].
    rewrite app_assoc, nth_error_app2 by (rewrite app_length, !map_length; unfold mv in *; lia).
    rewrite app_length, !map_length. replace (length dk - (length e1 + length e2')) with 0 by (unfold mv in *; lia).
    reflexivity. }
  rewrite Elast. cbn [bind].
  destruct (@pre_set_end nat dc1 e2' bal el) as (dc2 & EC3 & PC3 & LC3); auto; try lia.
  { rewrite Edc1. eexists; reflexivity. }
  rewrite EC3. cbn [bind].
  destruct (@pre_set Z (bk pb) pa k pbb (length pa) s) as (pks & EP & PP & LP); auto.
  rewrite EP. cbn [bind].
  eexists _, _, _. split; [reflexivity|].
  splits; auto; try lia; unfold brep; cbn [bn bk bc].
  - splits; auto; try lia.
    + rewrite Edk1. eexists; reflexivity.
    + rewrite Ee2. exact PC3.
  - rewrite !app_length. cbn [length]. splits; auto; try lia.
    + rewrite Erk1 in LK1. repeat (rewrite ?app_length, ?map_length in *; cbn [length] in *). lia.
    + exists (Some s :: T). repeat (rewrite ?map_app, <- ?app_assoc; cbn [map app]). reflexivity.
  - rewrite !app_length in *. cbn [length] in *. splits; auto; try lia.
Qed.

End Branch.
