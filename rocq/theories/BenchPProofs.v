(** The computations in the table benchmarks. *)
From Coq Require Import Permutation.
From Verif Require Import Base ArrLemmas MapSpec BenchPModel BenchPSpec.
Open Scope Z_scope.

(** ** hibit_pos *)
Lemma hibit_ok : forall fuel n c, 0 <= n < 2 ^ Z.of_nat fuel -> (0 < fuel)%nat -> hibit_pos fuel n c = Ok (c + Z.log2 n).
Proof.
  induction fuel as [|f IH]; intros n c N F; [lia|]. cbn [hibit_pos]. rewrite Z.shiftr_div_pow2 by lia. change (2 ^ 1) with 2.
  destruct (Z.eqb_spec (n / 2) 0) as [E|E].
  - f_equal. assert (n < 2) by lia. assert (Z.log2 n = 0) by (apply Z.log2_null; lia). lia.
  - rewrite Nat2Z.inj_succ, Z.pow_succ_r in N by lia. destruct f as [|f]; [cbn in N; lia|]. rewrite IH by lia. f_equal.
    assert (Z.log2 n = Z.succ (Z.log2 (n / 2))); [|lia].
    rewrite <- Z.log2_double by lia. destruct (Z.Even_or_Odd n) as [(m & M)|(m & M)].
    + f_equal. lia.
    + assert (ND : n / 2 = m) by lia. rewrite ND. rewrite M, Z.log2_succ_double, Z.log2_double by lia. reflexivity.
Qed.
Lemma hibit_loops : forall fuel n c, n < 0 -> hibit_pos fuel n c = NoFuel.
Proof.
  induction fuel as [|f IH]; intros n c N; [reflexivity|]. cbn [hibit_pos]. rewrite Z.shiftr_div_pow2 by lia. change (2 ^ 1) with 2.
  destruct (Z.eqb_spec (n / 2) 0); [lia|]. apply IH. lia.
Qed.

(** ** createPointVector *)
Lemma points_ok : forall fuel n, n < 10 ^ Z.of_nat fuel -> (0 < fuel)%nat -> exists r, points fuel n = Ok r /\
  forall a b, In (a, b) r <-> b = a / 2 /\ 100 <= a /\ exists j, 0 <= j /\ a = n / 10 ^ j.
Proof.
  induction fuel as [|f IH]; intros n N F; [lia|]. cbn [points]. destruct (Z.leb_spec 100 n) as [L|L].
  - rewrite Nat2Z.inj_succ, Z.pow_succ_r in N by lia. destruct f as [|f]; [cbn in N; lia|].
    destruct (IH (n / 10)) as (r & E & I); [apply Z.div_lt_upper_bound; lia|lia|]. rewrite E. cbn [bind]. eexists. split; [reflexivity|].
    intros a b. rewrite in_app_iff, I. split.
    + intros [(-> & A & j & J & ->)|[H|[]]].
      * split; [reflexivity|]. split; [exact A|]. exists (Z.succ j). split; [lia|].
        rewrite Z.pow_succ_r by lia. rewrite Z.div_div by lia. reflexivity.
      * injection H as <- <-. split; [reflexivity|]. split; [lia|]. exists 0. split; [lia|]. rewrite Z.pow_0_r, Z.div_1_r. reflexivity.
    + intros (-> & A & j & J & H). destruct (Z.eq_dec j 0) as [->|NJ].
      * right. left. rewrite Z.pow_0_r, Z.div_1_r in H. subst a. reflexivity.
      * left. split; [reflexivity|]. split; [exact A|]. exists (j - 1). split; [lia|].
        rewrite H. rewrite Z.div_div by lia. rewrite <- Z.pow_succ_r by lia. do 2 f_equal. lia.
  - eexists. split; [reflexivity|]. intros a b. split; [intros []|]. intros (_ & A & j & J & H). exfalso.
    destruct (Z.le_gt_cases 0 n) as [P|P].
    + assert (n / 10 ^ j <= n); [|lia]. apply Z.div_le_upper_bound; [lia|]. nia.
    + assert (n / 10 ^ j < 0); [|lia]. apply Z.div_lt_upper_bound; lia.
Qed.
Lemma progress_ok : forall a i, 100 <= a -> exists b, progress a i = Ok b.
Proof. intros a i A. unfold progress. destruct (Z.eqb_spec (a / 100) 0); [lia|]. eexists. reflexivity. Qed.

(** ** The selections *)
Lemma filter_all : forall A (p : A -> bool) l, (forall x, In x l -> p x = true) -> filter p l = l.
Proof. induction l as [|x l IH]; intros H; [reflexivity|]. cbn. rewrite (H x (or_introl eq_refl)), IH; [reflexivity|]. intros y Y. apply H. right. exact Y. Qed.
Lemma filter_none : forall A (p : A -> bool) l, (forall x, In x l -> p x = false) -> filter p l = [].
Proof. induction l as [|x l IH]; intros H; [reflexivity|]. cbn. rewrite (H x (or_introl eq_refl)). apply IH. intros y Y. apply H. right. exact Y. Qed.
Lemma shift_map : forall s m a b, Z.of_nat a + 1 = s + Z.of_nat b ->
  map (fun i => Z.of_nat i + 1) (seq a m) = map (fun j => s + Z.of_nat j) (seq b m).
Proof. induction m as [|m IH]; intros a b E; [reflexivity|]. cbn [seq map]. rewrite E. f_equal. apply IH. lia. Qed.
Lemma rows_part : forall p n s c, (forall i, 1 <= i <= n -> p (i, i) = (s <=? i) && (i <? s + c)) -> 1 <= s -> 0 <= c -> s + c <= n + 1 ->
  map fst (filter p (rows n)) = window s c.
Proof.
  intros p n s c P S C L. unfold rows.
  replace (Z.to_nat n) with (Z.to_nat (s - 1) + (Z.to_nat c + Z.to_nat (n + 1 - s - c)))%nat by lia.
  rewrite !seq_app, !map_app, !filter_app.
  rewrite (@filter_none _ p (map _ (seq 0 _))).
  2:{ intros x X. apply in_map_iff in X. destruct X as (i & <- & I). apply in_seq in I. rewrite P by lia.
      destruct (Z.leb_spec s (Z.of_nat i + 1)); [lia|reflexivity]. }
  rewrite filter_all.
  2:{ intros x X. apply in_map_iff in X. destruct X as (i & <- & I). apply in_seq in I. rewrite P by lia.
      destruct (Z.leb_spec s (Z.of_nat i + 1)); [|lia]. destruct (Z.ltb_spec (Z.of_nat i + 1) (s + c)); [reflexivity|lia]. }
  rewrite filter_none.
  2:{ intros x X. apply in_map_iff in X. destruct X as (i & <- & I). apply in_seq in I. rewrite P by lia.
      destruct (Z.ltb_spec (Z.of_nat i + 1) (s + c)); [lia|]. apply andb_false_r. }
  rewrite app_nil_r. cbn [app]. unfold window. rewrite map_map. cbn [fst Nat.add].
  apply shift_map. lia.
Qed.
Ltac bools := repeat match goal with
  | |- context [(?a <=? ?b)] => destruct (Z.leb_spec a b)
  | |- context [(?a <? ?b)] => destruct (Z.ltb_spec a b)
  end; cbn [andb]; try reflexivity; try lia.
Lemma key_sel : forall n s w m, 1 <= n -> In (w, m) (key_ranges n) -> 1 <= s <= m ->
  map fst (filter (key_scan s w) (rows n)) = window s w.
Proof.
  intros n s w m N I S. assert (0 <= w /\ s + w <= n + 1) as [W L].
  { unfold key_ranges in I. cbn [In] in I. repeat (destruct I as [I|I]; [injection I as <- <-; lia|]). contradiction. }
  apply rows_part; try lia. intros i I1. unfold key_scan. cbn [fst]. bools.
Qed.
Lemma non_key_sel : forall n s w m, 1 <= n -> In (w, m) (non_key_parts n) -> 1 <= w -> 1 <= s <= m ->
  map fst (filter (non_key_scan s w) (rows n)) = window s (w + 1).
Proof.
  intros n s w m N I W S. assert (s + w + 1 <= n + 1) as L.
  { unfold non_key_parts in I. cbn [In] in I. repeat (destruct I as [I|I]; [injection I as <- <-; lia|]). contradiction. }
  apply rows_part; try lia. intros i I1. unfold non_key_scan. cbn [fst snd]. bools.
Qed.
Lemma non_key_all : forall n, 1 <= n -> map fst (filter (non_key_scan 1 n) (rows n)) = window 1 n.
Proof. intros n N. apply rows_part; try lia. intros i I1. unfold non_key_scan. cbn [fst snd]. bools. Qed.
Lemma tree_sel : forall n s w m, 2 <= n -> In (w, m) (non_key_ranges n) -> 1 <= w -> 1 <= s <= m ->
  map fst (filter (tree_scan s w) (rows n)) = window s (w / 2 + 1).
Proof.
  intros n s w m N I W S. assert (s + w / 2 + 1 <= n + 1) as L.
  { unfold non_key_ranges, non_key_parts in I. cbn [In app] in I. repeat (destruct I as [I|I]; [injection I as <- <-; lia|]). contradiction. }
  apply rows_part; try lia. intros i I1. unfold tree_scan. cbn [fst snd]. rewrite Z.quot_div_nonneg by lia. bools.
Qed.

(** ** The clustering bits of the keys *)
Lemma land_field : forall k a b, 0 <= a -> 0 <= b -> 0 <= k < 2 ^ (a + b) ->
  Z.shiftr (Z.land k (Z.shiftl (2 ^ b - 1) a)) a = k / 2 ^ a /\ k / 2 ^ a < 2 ^ b.
Proof.
  intros k a b A B K. rewrite Z.shiftr_land, Z.shiftr_shiftl_l, Z.sub_diag, Z.shiftl_0_r by lia.
  rewrite Z.shiftr_div_pow2 by lia. replace (2 ^ b - 1) with (Z.ones b) by (rewrite Z.ones_equiv; lia).
  rewrite Z.land_ones by lia. rewrite Z.pow_add_r in K by lia.
  assert (k / 2 ^ a < 2 ^ b) by (apply Z.div_lt_upper_bound; lia).
  split; [|assumption]. apply Z.mod_small. split; [apply Z.div_pos; lia|assumption].
Qed.

(** ** The choice of keys *)
Definition zkeys (T : nat) : list Z := map (fun i => Z.of_nat i + 1) (seq 0 T).
Lemma choose_ok : forall rs keys ks, pre keys ks -> (length rs <= length ks)%nat ->
  exists out rest, pt_choose keys (length ks) rs = Ok out /\ length out = length rs /\ Permutation ks (out ++ rest).
Proof.
  induction rs as [|r rs IH]; intros keys ks P L.
  - exists [], ks. cbn. split; [reflexivity|]. split; [reflexivity|apply Permutation_refl].
  - destruct (exists_last (l := ks)) as (front & z & E); [intros ->; cbn in L; lia|].
    assert (LK : length ks = Datatypes.S (length front)) by (rewrite E, app_length; cbn; lia).
    cbn [pt_choose]. rewrite LK.
    set (c := (r mod Datatypes.S (length front))%nat). assert (C : (c < Datatypes.S (length front))%nat) by (apply Nat.mod_upper_bound; lia).
    assert (GZ : aget keys (length front) = Ok z).
    { apply (pre_get_nth P). rewrite E, nth_error_app2, Nat.sub_diag by lia. reflexivity. }
    destruct (Nat.eq_dec c (length front)) as [EC|NC].
    + rewrite EC, GZ. cbn [bind]. rewrite E in P. destruct (@pre_set Z keys front z [] (length front) z P eq_refl) as (k' & S' & P' & _).
      rewrite S'. cbn [bind].
      assert (PF : pre k' front) by (destruct P' as (R & ->); exists (Some z :: R); rewrite map_app, <- app_assoc; reflexivity).
      destruct (IH k' front PF ltac:(cbn in L; lia)) as (out & rest & O & LO & PM). rewrite O. cbn [bind].
      exists (z :: out), rest. split; [reflexivity|]. split; [cbn; lia|]. rewrite E, <- Permutation_cons_append. cbn. constructor. exact PM.
    + destruct (nth_error front c) as [x|] eqn:EX; [|apply nth_error_None in EX; lia].
      apply nth_error_split in EX. destruct EX as (f1 & f2 & EF & LF).
      assert (GX : aget keys c = Ok x).
      { apply (pre_get_nth P). rewrite E, EF, <- app_assoc, nth_error_app2 by lia. rewrite LF, Nat.sub_diag. reflexivity. }
      rewrite GX, GZ. cbn [bind].
      assert (P2 : pre keys (f1 ++ x :: (f2 ++ [z]))) by (rewrite E, EF, <- app_assoc in P; exact P).
      destruct (@pre_set Z keys f1 x (f2 ++ [z]) c z P2 (eq_sym LF)) as (k' & S' & P' & _). rewrite S'. cbn [bind].
      assert (PF : pre k' (f1 ++ z :: f2)).
      { destruct P' as (R & ->). exists (Some z :: R). change (f1 ++ z :: f2 ++ [z]) with (f1 ++ (z :: f2) ++ [z]).
        rewrite app_assoc, (map_app _ _ [z]), <- app_assoc. reflexivity. }
      assert (LF2 : length front = length (f1 ++ z :: f2)) by (rewrite EF, !app_length; reflexivity). rewrite LF2.
      destruct (IH k' (f1 ++ z :: f2) PF) as (out & rest & O & LO & PM); [rewrite <- LF2; cbn in L; lia|]. rewrite O. cbn [bind].
      exists (x :: out), rest. split; [reflexivity|]. split; [cbn; lia|]. cbn [app].
      rewrite E, EF. rewrite <- app_assoc. cbn [app]. rewrite <- Permutation_middle. constructor.
      rewrite <- PM. rewrite app_assoc, <- Permutation_cons_append, <- Permutation_middle. apply Permutation_refl.
Qed.
Lemma zkeys_pre : forall T, pre (pt_keys T) (zkeys T).
Proof. intros T. exists []. unfold pt_keys, zkeys. rewrite app_nil_r, map_map. reflexivity. Qed.
Lemma zkeys_len : forall T, length (zkeys T) = T.
Proof. intros T. unfold zkeys. rewrite map_length, seq_length. reflexivity. Qed.
Lemma choose_keys : forall T rs, (length rs <= T)%nat ->
  exists out rest, pt_choose (pt_keys T) T rs = Ok out /\ length out = length rs /\ Permutation (zkeys T) (out ++ rest).
Proof.
  intros T rs L. destruct (@choose_ok rs (pt_keys T) (zkeys T) (zkeys_pre T)) as (out & rest & E & A & B); [rewrite zkeys_len; exact L|].
  rewrite zkeys_len in E. exists out, rest. split; [exact E|]. split; assumption.
Qed.
Lemma choose_more : forall rs keys cur, (cur < length rs)%nat -> forall out, pt_choose keys cur rs <> Ok out.
Proof.
  induction rs as [|r rs IH]; intros keys cur L out; [cbn in L; lia|]. cbn [pt_choose]. destruct cur as [|c]; [discriminate|].
  destruct (aget keys _) as [k| |]; cbn [bind]; try discriminate. destruct (aget keys c) as [z| |]; cbn [bind]; try discriminate.
  destruct (aset _ _ _) as [k'| |]; cbn [bind]; try discriminate.
  destruct (pt_choose k' c rs) as [o| |] eqn:E; cbn [bind]; try discriminate. exfalso. exact (IH k' c ltac:(cbn in L; lia) o E).
Qed.

(** The table after the run *)
Lemma run_ins : forall V (f : Z -> V) ks m k, fold_left (@m_step V) (map (fun x => OpInsert x (f x)) ks) m k =
  if existsb (Z.eqb k) ks then Some (f k) else m k.
Proof.
  induction ks as [|x ks IH]; intros m k; [reflexivity|]. cbn [map fold_left existsb]. rewrite IH. cbn [m_step]. unfold m_put.
  destruct (existsb (Z.eqb k) ks); [rewrite orb_true_r; reflexivity|]. rewrite orb_false_r. destruct (Z.eqb_spec k x) as [->|]; reflexivity.
Qed.
Lemma run_del : forall V ks (m : amap V) k, fold_left (@m_step V) (map (@OpErase V) ks) m k = if existsb (Z.eqb k) ks then None else m k.
Proof.
  induction ks as [|x ks IH]; intros m k; [reflexivity|]. cbn [map fold_left existsb]. rewrite IH. cbn [m_step]. unfold m_del.
  destruct (existsb (Z.eqb k) ks); [rewrite orb_true_r; reflexivity|]. rewrite orb_false_r. destruct (Z.eqb_spec k x) as [->|]; reflexivity.
Qed.
Lemma del_hist : forall V ks (m : amap V), NoDup ks -> (forall k, In k ks -> m k <> None) -> hist_ok m (map (@OpErase V) ks).
Proof.
  induction ks as [|x ks IH]; intros m N P; [exact I|]. cbn [map hist_ok op_ok]. split; [apply P; left; reflexivity|].
  inversion N; subst. apply IH; [assumption|]. intros k K. cbn [m_step]. unfold m_del.
  destruct (Z.eqb_spec k x) as [->|]; [contradiction|]. apply P. right. exact K.
Qed.
Lemma ex_in : forall k ks, existsb (Z.eqb k) ks = true <-> In k ks.
Proof.
  intros k ks. rewrite existsb_exists. split.
  - intros (x & X & E). apply Z.eqb_eq in E. subst x. exact X.
  - intros I. exists k. split; [exact I|apply Z.eqb_refl].
Qed.
Lemma zkeys_in : forall T k, In k (zkeys T) <-> 1 <= k <= Z.of_nat T.
Proof.
  intros T k. unfold zkeys. rewrite in_map_iff. split.
  - intros (i & <- & I). apply in_seq in I. lia.
  - intros K. exists (Z.to_nat (k - 1)). split; [lia|]. apply in_seq. lia.
Qed.
Lemma zkeys_nodup : forall T, NoDup (zkeys T).
Proof. intros T. unfold zkeys. apply FinFun.Injective_map_NoDup; [intros a b; lia|apply seq_NoDup]. Qed.
Lemma run_ok : forall V (f : Z -> V) T rs rs', (1 <= T)%nat -> length rs = T -> length rs' = (T - 1)%nat ->
  exists ks ds, pt_choose (pt_keys T) T rs = Ok ks /\ pt_choose (pt_keys T) T rs' = Ok ds /\ NoDup ks /\ NoDup ds /\
  (forall k, m_run (map (fun x => OpInsert x (f x)) ks) k = if (1 <=? k) && (k <=? Z.of_nat T) then Some (f k) else None) /\
  hist_ok (m_run (map (fun x => OpInsert x (f x)) ks)) (map (@OpErase V) ds) /\
  exists k0, 1 <= k0 <= Z.of_nat T /\ forall k, m_run (map (fun x => OpInsert x (f x)) ks ++ map (@OpErase V) ds) k = if k =? k0 then Some (f k) else None.
Proof.
  intros V f T rs rs' HT L L'. destruct (@choose_keys T rs ltac:(lia)) as (ks & rest & E & LK & P).
  destruct (@choose_keys T rs' ltac:(lia)) as (ds & rest' & E' & LD & P').
  assert (rest = []). { apply Permutation_length in P. rewrite app_length, zkeys_len in P. destruct rest; [reflexivity|cbn in P; lia]. }
  subst rest. rewrite app_nil_r in P.
  assert (exists k0, rest' = [k0]) as (k0 & ->).
  { apply Permutation_length in P'. rewrite app_length, zkeys_len in P'. destruct rest' as [|a [|b r]]; cbn in P'; try lia. exists a. reflexivity. }
  assert (RI : forall k, m_run (map (fun x => OpInsert x (f x)) ks) k = if (1 <=? k) && (k <=? Z.of_nat T) then Some (f k) else None).
  { intros k. unfold m_run. rewrite run_ins. change (@m_empty V k) with (@None V). destruct (existsb (Z.eqb k) ks) eqn:X.
    - apply ex_in in X. apply (Permutation_in _ (Permutation_sym P)) in X. apply zkeys_in in X. bools.
    - bools. exfalso. assert (In k ks) as I by (apply (Permutation_in _ P), zkeys_in; lia). apply ex_in in I. congruence. }
  assert (ND : NoDup (ds ++ [k0])) by (eapply Permutation_NoDup; [exact P'|apply zkeys_nodup]).
  assert (NDC : NoDup (k0 :: ds)) by (eapply Permutation_NoDup; [apply Permutation_sym, Permutation_cons_append|exact ND]).
  assert (ND1 : NoDup ds) by (inversion NDC; assumption).
  assert (DIN : forall k, In k (ds ++ [k0]) <-> 1 <= k <= Z.of_nat T).
  { intros k. rewrite <- zkeys_in. split; apply Permutation_in; [apply Permutation_sym|]; exact P'. }
  exists ks, ds. split; [exact E|]. split; [exact E'|]. split; [eapply Permutation_NoDup; [exact P|apply zkeys_nodup]|]. split; [exact ND1|].
  split; [exact RI|]. split.
  - apply del_hist; [exact ND1|]. intros k K. rewrite RI. assert (1 <= k <= Z.of_nat T) by (apply DIN, in_or_app; left; exact K). bools. discriminate.
  - exists k0. assert (K0 : 1 <= k0 <= Z.of_nat T) by (apply DIN, in_or_app; right; left; reflexivity). split; [exact K0|]. intros k.
    unfold m_run. rewrite fold_left_app, run_del. fold (m_run (map (fun x => OpInsert x (f x)) ks)). rewrite RI.
    assert (NI : ~ In k0 ds) by (inversion NDC; assumption).
    destruct (existsb (Z.eqb k) ds) eqn:X.
    + apply ex_in in X. destruct (Z.eqb_spec k k0) as [->|]; [contradiction|reflexivity].
    + destruct (Z.eqb_spec k k0) as [->|NE]; [bools|].
      bools. exfalso. assert (I : In k (ds ++ [k0])) by (apply DIN; lia). apply in_app_iff in I. destruct I as [I|[I|[]]]; [|congruence].
      apply ex_in in I. congruence.
Qed.
