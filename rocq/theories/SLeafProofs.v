(** The sorted leaf code satisfies the leaf laws, for every capacity M >= 2. *)
From Verif Require Import Base ArrLemmas MapSpec SortedList SearchModel SearchProofs BTreeModel BTreeLaws SLeafModel.
Open Scope nat_scope.

Section SLeafProofs.
Variables (V : Type) (M : nat).
Hypothesis HM : 2 <= M.
Variable lpos : arr Z -> nat -> Z -> res nat.
Hypothesis lpos_ok : forall a b R key, ssorted (a ++ b) -> alt key a -> age key b ->
  lpos (map Some (a ++ b) ++ R) (length (a ++ b)) key = Ok (length a).

Definition vals (es : list (Z * V)) := map snd es.

Definition sl_rep (l : sleaf V) (es : list (Z * V)) : Prop :=
  sorted es /\ sn l = length es /\ length es <= M /\ length (sk l) = M /\ length (sv l) = M /\
  pre (sk l) (keys es) /\ pre (sv l) (vals es).
Definition sl_hint (l : sleaf V) (es : list (Z * V)) (k : Z) : Prop :=
  sl_rep l es /\ (es = [] -> aget (sk l) 0 = Ok k).

Lemma vals_app a b : vals (a ++ b) = vals a ++ vals b.
Proof. apply map_app. Qed.
Lemma vals_length es : length (vals es) = length es.
Proof. apply map_length. Qed.

Lemma lpos_rep l es e1 e2 key : sl_rep l es -> es = e1 ++ e2 -> alt key (keys e1) -> age key (keys e2) ->
  lpos (sk l) (sn l) key = Ok (length e1).
Proof.
  intros (HS & Hn & _ & _ & _ & [R Hk] & _) -> H1 H2. rewrite Hk, Hn.
  rewrite <- (keys_length (e1 ++ e2)), <- (keys_length e1), keys_app.
  apply lpos_ok; auto. rewrite <- keys_app. exact HS.
Qed.

Lemma agt_age k ks : agt k ks -> age k ks.
Proof. unfold agt, age. apply Forall_impl. lia. Qed.

Lemma sl_rep_key l e1 x v e2 i : sl_rep l (e1 ++ (x, v) :: e2) -> i = length e1 ->
  aget (sk l) i = Ok x /\ aget (sv l) i = Ok v.
Proof.
  intros (HS & Hn & _ & _ & _ & Hk & Hv) ->. rewrite keys_app in Hk. rewrite vals_app in Hv.
  simpl in *. split; eapply pre_get; eauto; now rewrite ?keys_length, ?vals_length.
Qed.

Lemma sl_absent_ok l es k : sl_rep l es -> get k es = None -> sn l <> 0 ->
  ((exists i x, i < sn l /\ aget (sk l) i = Ok x /\ (k < x)%Z) \/ (exists x, aget (sk l) (sn l) = Ok x /\ x <> k)) ->
  sl_erase lpos l k = Ok (false, l) /\ sl_hint l es k.
Proof.
  intros H G NE HX. pose proof H as (HS & Hn & HC & L1 & L2 & HP & _). split; [|split; [assumption|intros ->; cbn in Hn; lia]].
  destruct (locate k HS) as [(a & b & -> & Ha & Hb)|(a & w & b & -> & Ha & Hb)].
  2:{ rewrite get_old in G by assumption. discriminate. }
  unfold sl_erase. rewrite (lpos_rep H eq_refl Ha (agt_age Hb)). cbn [bind].
  destruct b as [|[y w] b].
  - rewrite app_nil_r in *. rewrite Hn in *. destruct HX as [(i & x & Hi & Ex & Hx)|(x & Ex & Hx)].
    + exfalso. destruct (nth_error (keys a) i) as [z|] eqn:Ez; [|apply nth_error_None in Ez; rewrite keys_length in Ez; lia].
      rewrite (pre_get_nth HP Ez) in Ex. injection Ex as ->.
      apply nth_error_In in Ez. unfold alt in Ha. rewrite Forall_forall in Ha. specialize (Ha _ Ez). cbn in Ha. lia.
    + rewrite Ex. cbn [bind]. destruct (Z.eqb_spec x k); [congruence|reflexivity].
  - destruct (sl_rep_key H eq_refl) as [-> _]. cbn [bind]. inversion Hb; subst; simpl in *. destruct (Z.eqb_spec y k); [lia|reflexivity].
Qed.

Lemma sl_lookup_ok l es k : sl_rep l es -> sl_lookup lpos l k = Ok (get k es).
Proof.
  intros H. pose proof H as (HS & Hn & _). unfold sl_lookup.
  destruct (locate k HS) as [(a & b & -> & Ha & Hb)|(a & w & b & -> & Ha & Hb)].
  - rewrite (lpos_rep H eq_refl Ha (agt_age Hb)). simpl. rewrite get_new by assumption.
    destruct (Nat.ltb_spec (length a) (sn l)) as [L|L]; [|reflexivity].
    rewrite Hn, app_length in L. destruct b as [|[x w] b]; [simpl in L; lia|].
    destruct (sl_rep_key H eq_refl) as [-> _]. simpl.
    inversion Hb; subst; simpl in *. destruct (Z.eqb_spec x k); [lia|reflexivity].
  - assert (Hb' : age k (keys ((k, w) :: b))) by (constructor; [simpl; lia|apply agt_age; auto]).
    rewrite (lpos_rep H eq_refl Ha Hb'). simpl.
    rewrite get_old by assumption. rewrite Hn, app_length. simpl.
    destruct (Nat.ltb_spec (length a) (length a + S (length b))) as [L|L]; [|lia].
    destruct (sl_rep_key H eq_refl) as [-> ->]. simpl. now rewrite Z.eqb_refl.
Qed.

Lemma sl_insert_at_ok l e1 e2 k v : sl_rep l (e1 ++ e2) -> length (e1 ++ e2) < M ->
  sorted (e1 ++ (k, v) :: e2) ->
  exists l', sl_insert_at l (length e1) k v = Ok l' /\ sl_rep l' (e1 ++ (k, v) :: e2).
Proof.
  intros (HS & Hn & HC & LK & LV & Hk & Hv) HL HS'. unfold sl_insert_at.
  rewrite keys_app in Hk. rewrite vals_app in Hv.
  destruct (@arr_insert Z (sk l) (keys e1) (keys e2) k (sn l) (length e1)) as (k1 & k2 & E1 & E2 & P2 & L2); auto.
  { now rewrite keys_length. }
  { rewrite <- keys_app, keys_length. auto. }
  { lia. }
  destruct (@arr_insert V (sv l) (vals e1) (vals e2) v (sn l) (length e1)) as (v1 & v2 & F1 & F2 & Q2 & M2); auto.
  { now rewrite vals_length. }
  { rewrite <- vals_app, vals_length. auto. }
  { lia. }
  rewrite (for_down_pair E1 F1). simpl. rewrite E2. simpl. rewrite F2. simpl.
  eexists. split; [reflexivity|]. unfold sl_rep; simpl. rewrite keys_app, vals_app.
  rewrite app_length in *. simpl. splits; auto; lia.
Qed.

Lemma sl_split_ok l e1 e2 : sl_rep l (e1 ++ e2) -> length e1 = (M + 1) / 2 -> length (e1 ++ e2) = M ->
  exists l1 l2, sl_split M l = Ok (l1, l2) /\ sl_rep l1 e1 /\ sl_rep l2 e2.
Proof.
  intros (HS & Hn & HC & LK & LV & Hk & Hv) HL1 HL. unfold sl_split.
  rewrite app_length in *. destruct (Nat.ltb_spec (sn l) ((M + 1) / 2)) as [Lt|_]; [lia|].
  rewrite keys_app in Hk. rewrite vals_app in Hv.
  apply sorted_app in HS as (S1 & S2 & S12).
  destruct (@arr_copy Z (fun i => i) (fun i => i + (M + 1) / 2) (sk l) (anew M) (keys e1) (keys e2) [] (sn l - (M + 1) / 2))
    as (k1 & E1 & P1 & L1); auto.
  { exists (anew M). reflexivity. }
  { rewrite keys_length. lia. }
  { unfold anew. rewrite repeat_length, keys_length. simpl. lia. }
  { intros. rewrite keys_length. lia. }
  destruct (@arr_copy V (fun i => i) (fun i => i + (M + 1) / 2) (sv l) (anew M) (vals e1) (vals e2) [] (sn l - (M + 1) / 2))
    as (v1 & F1 & Q1 & M1); auto.
  { exists (anew M). reflexivity. }
  { rewrite vals_length. lia. }
  { unfold anew. rewrite repeat_length, vals_length. simpl. lia. }
  { intros. rewrite vals_length. lia. }
  rewrite (for_up_pair E1 F1). cbn [bind fst snd]. eexists _, _. split; [reflexivity|].
  unfold anew in *. rewrite repeat_length in *.
  split; unfold sl_rep; cbn [sn sk sv]; splits; auto; try lia.
  all: try (eapply pre_app_l; eauto).
Qed.

Lemma mid_le : (M + 1) / 2 <= M. Proof using HM. lia. Qed.

(** Result of insert on a leaf. *)
Lemma sl_insert_ok l es k v : sl_rep l es ->
  (exists l', sl_insert M lpos l k v = Ok (LDone l') /\ sl_rep l' (ins k v es)) \/
  (exists l1 l2 sk e1 e2,
     sl_insert M lpos l k v = Ok (LSplit l1 l2 sk) /\
     ins k v es = e1 ++ e2 /\ sl_rep l1 e1 /\ sl_rep l2 e2 /\
     M / 2 <= length e1 /\ M / 2 <= length e2 /\ e1 <> [] /\ e2 <> [] /\
     alt sk (keys e1) /\ age sk (keys e2)).
Proof.
  intros H. pose proof H as (HS & Hn & HC & LK & LV & Hk & Hv). unfold sl_insert.
  pose proof (sorted_ins k v HS) as HSi.
  destruct (locate k HS) as [(a & b & -> & Ha & Hb)|(a & w & b & -> & Ha & Hb)].
  - rewrite (lpos_rep H eq_refl Ha (agt_age Hb)). cbn [bind].
    assert (Hdup : (if length a <? sn l then do k0 <- aget (sk l) (length a); Ok (k0 =? k)%Z else Ok false) = Ok false).
    { destruct (Nat.ltb_spec (length a) (sn l)) as [L|L]; [|reflexivity].
      rewrite Hn, app_length in L. destruct b as [|[x w] b]; [simpl in L; lia|].
      destruct (sl_rep_key H eq_refl) as [-> _]. simpl.
      inversion Hb; subst; simpl in *. destruct (Z.eqb_spec x k); [lia|reflexivity]. }
    rewrite Hdup. cbn [bind].
    rewrite ins_new in * by assumption.
    destruct (Nat.eqb_spec (sn l) M) as [EM|NM].
    + (* split *)
      right. rewrite Hn in EM.
      destruct (@split_at _ (a ++ b) ((M + 1) / 2)) as (p & q & Epq & Lp); [rewrite EM; apply mid_le|].
      assert (Lq : length q = M - (M + 1) / 2).
      { rewrite Epq, app_length in EM. lia. }
      rewrite Epq in H, HC, EM.
      destruct (sl_split_ok H Lp EM) as (l1 & l2 & E & R1 & R2). rewrite E. cbn [bind fst snd].
      destruct (Nat.ltb_spec (length a) ((M + 1) / 2)) as [L|L].
      * (* into the left half: p = a ++ b1, b = b1 ++ q *)
        assert (exists b1, p = a ++ b1 /\ b = b1 ++ q) as (b1 & Ep & Eb).
        { exists (skipn (length a) p). 
          assert (E1 : firstn (length a) p = a).
          { transitivity (firstn (length a) (p ++ q)).
            - rewrite firstn_app. replace (length a - length p) with 0 by lia. simpl. now rewrite app_nil_r.
            - rewrite <- Epq, firstn_app, Nat.sub_diag, firstn_all. simpl. now rewrite app_nil_r. }
          assert (E2 : p = a ++ skipn (length a) p) by (rewrite <- (firstn_skipn (length a) p) at 1; now rewrite E1).
          split; auto. rewrite E2, <- app_assoc in Epq. now apply app_inv_head in Epq. }
        subst p b.
        destruct (@sl_insert_at_ok l1 a b1 k v) as (l1' & E' & R1'); auto.
        { lia. }
        { rewrite app_comm_cons, app_assoc in HSi. now apply sorted_app in HSi as (? & _). }
        rewrite E'. cbn [bind fst snd].
        destruct q as [|[x w] q]; [simpl in Lq; lia|].
        destruct (@sl_rep_key l2 [] x w q 0 R2 eq_refl) as [-> _]. cbn [bind].
        exists l1', l2, x, (a ++ (k, v) :: b1), ((x, w) :: q).
        rewrite app_comm_cons, app_assoc in HSi. pose proof HSi as HSi'.
        apply sorted_app in HSi as (S1 & S2 & S12).
        split; [reflexivity|]. split; [now rewrite <- app_assoc|].
        rewrite !app_length in *. simpl in *.
        splits; auto; try lia; try (destruct a; discriminate); try discriminate.
        -- apply alt_in. intros y Hy. apply S12; simpl; auto.
        -- constructor; [lia|]. unfold sorted in S2. simpl in S2. apply ssorted_cons in S2 as [_ S2].
           now apply agt_age.
      * (* into the right half: a = p ++ a1, q = a1 ++ b *)
        assert (exists a1, a = p ++ a1 /\ q = a1 ++ b) as (a1 & Ea & Eq).
        { exists (skipn (length p) a).
          assert (E1 : firstn (length p) a = p).
          { transitivity (firstn (length p) (a ++ b)).
            - rewrite firstn_app. replace (length p - length a) with 0 by lia. simpl. now rewrite app_nil_r.
            - rewrite Epq, firstn_app, Nat.sub_diag, firstn_all. simpl. now rewrite app_nil_r. }
          assert (E2 : a = p ++ skipn (length p) a) by (rewrite <- (firstn_skipn (length p) a) at 1; now rewrite E1).
          split; auto. rewrite E2, <- app_assoc in Epq. apply app_inv_head in Epq. auto. }
        subst a q.
        rewrite <- app_assoc in HSi.
        pose proof HSi as HSi'. apply sorted_app in HSi as (S1 & S2 & S12).
        destruct (@sl_insert_at_ok l2 a1 b k v) as (l2' & E' & R2'); auto.
        { lia. }
        replace (length (p ++ a1) - (M + 1) / 2) with (length a1) by (rewrite app_length; lia).
        rewrite E'. cbn [bind fst snd].
        destruct (a1 ++ (k, v) :: b) as [|[x w] q'] eqn:Eq'; [destruct a1; discriminate|].
        destruct (@sl_rep_key l2' [] x w q' 0 R2' eq_refl) as [-> _]. cbn [bind].
        exists l1, l2', x, p, ((x, w) :: q').
        split; [reflexivity|]. split; [now rewrite <- app_assoc, Eq'|].
        assert (Lq' : length q' = M - (M + 1) / 2).
        { pose proof (f_equal (@length _) Eq') as X. rewrite app_length in X, Lq. simpl in X. lia. }
        simpl.
        splits; auto; try lia; try discriminate.
        -- destruct p; [simpl in Lp; lia|discriminate].
        -- apply alt_in. intros y Hy. apply S12; simpl; auto.
        -- constructor; [lia|]. unfold sorted in S2. simpl in S2. apply ssorted_cons in S2 as [_ S2].
           now apply agt_age.
    + left. destruct (@sl_insert_at_ok l a b k v) as (l' & E' & R'); auto; [lia|].
      rewrite E'. simpl. eauto.
  - assert (Hb' : age k (keys ((k, w) :: b))) by (constructor; [simpl; lia|apply agt_age; auto]).
    rewrite (lpos_rep H eq_refl Ha Hb'). cbn [bind].
    rewrite Hn, app_length. cbn [length].
    destruct (Nat.ltb_spec (length a) (length a + S (length b))) as [L|L]; [|lia].
    destruct (sl_rep_key H eq_refl) as [-> _]. cbn [bind]. rewrite Z.eqb_refl.
    left. rewrite ins_old in * by assumption.
    rewrite vals_app in Hv. simpl in Hv.
    destruct (@pre_set V (sv l) (vals a) w (vals b) (length a) v Hv) as (v' & E & P & LL).
    { now rewrite vals_length. }
    rewrite E. simpl. eexists. split; [reflexivity|].
    unfold sl_rep; simpl. rewrite keys_app, vals_app in *. rewrite app_length in *. simpl in *.
    splits; auto; lia.
Qed.

Lemma sl_erase_ok l es k : sl_rep l es -> get k es <> None ->
  exists l', sl_erase lpos l k = Ok (true, l') /\ sl_hint l' (del k es) k.
Proof.
  intros H G. pose proof H as (HS & Hn & HC & LK & LV & Hk & Hv). unfold sl_erase.
  pose proof (sorted_del k HS) as HSd.
  destruct (locate k HS) as [(a & b & -> & Ha & Hb)|(a & w & b & -> & Ha & Hb)].
  { rewrite get_new in G by assumption. congruence. }
  assert (Hb' : age k (keys ((k, w) :: b))) by (constructor; [simpl; lia|apply agt_age; auto]).
  rewrite (lpos_rep H eq_refl Ha Hb'). cbn [bind].
  destruct (sl_rep_key H eq_refl) as [Ek0 _]. rewrite Ek0. cbn [bind]. rewrite Z.eqb_refl.
  rewrite Hn, app_length. cbn [length].
  destruct (Nat.eqb_spec (length a + S (length b)) 0) as [L|_]; [lia|].
  rewrite keys_app in Hk. rewrite vals_app in Hv. simpl in Hk, Hv.
  destruct (@arr_remove Z (sk l) (keys a) k (keys b) (length a + S (length b)) (length a)) as (k1 & E1 & P1 & L1 & St); auto.
  { now rewrite keys_length. }
  { rewrite app_length. simpl. now rewrite !keys_length. }
  destruct (@arr_remove V (sv l) (vals a) w (vals b) (length a + S (length b)) (length a)) as (v1 & F1 & Q1 & M1 & _); auto.
  { now rewrite vals_length. }
  { rewrite app_length. simpl. now rewrite !vals_length. }
  rewrite (for_up_pair E1 F1). simpl. eexists. split; [reflexivity|].
  rewrite del_old in * by assumption. rewrite app_length in *. simpl in *.
  split.
  - unfold sl_rep; simpl. rewrite keys_app, vals_app, app_length. splits; auto; lia.
  - intros E. apply app_eq_nil in E as [-> ->]. simpl. rewrite St by reflexivity. exact Ek0.
Qed.

Lemma sl_merge_ok l1 l2 e1 e2 : sl_rep l1 e1 -> sl_rep l2 e2 -> sorted (e1 ++ e2) ->
  length e1 + length e2 <= M ->
  exists l, sl_merge l1 l2 = Ok l /\ sl_rep l (e1 ++ e2).
Proof.
  intros (S1 & N1 & C1 & LK1 & LV1 & K1 & V1) (S2 & N2 & C2 & LK2 & LV2 & K2 & V2) HS HL.
  unfold sl_merge.
  destruct (@arr_copy Z (fun i => sn l1 + i) (fun i => i) (sk l2) (sk l1) [] (keys e2) (keys e1) (sn l2))
    as (k & E & P & Lk); auto; try (intros; rewrite ?keys_length; lia).
  destruct (@arr_copy V (fun i => sn l1 + i) (fun i => i) (sv l2) (sv l1) [] (vals e2) (vals e1) (sn l2))
    as (v & F & Q & Lv); auto; try (intros; rewrite ?vals_length; lia).
  rewrite (for_up_pair E F). simpl. eexists. split; [reflexivity|].
  unfold sl_rep; simpl. rewrite keys_app, vals_app, app_length. splits; auto; lia.
Qed.

Lemma pre_shift_front {A} (a : arr A) xs ys R : a = map Some xs ++ map Some ys ++ R -> pre a (xs ++ ys).
Proof. intros ->. exists R. now rewrite map_app, <- app_assoc. Qed.

Lemma sl_balance_left_ok dl rl ed er k : sl_rep dl ed -> sl_hint rl er k ->
  sorted (ed ++ er) -> alt k (keys ed) -> length er < length ed -> 1 < length ed ->
  exists d' r' e1 e2, sl_balance dl rl = Ok (d', r') /\ ed = e1 ++ e2 /\
    length e1 = (length ed + length er) / 2 /\ sl_rep d' e1 /\ sl_rep r' (e2 ++ er).
Proof.
  intros HD [HR Hst] HS Hk HL HL1.
  pose proof HD as (SD & ND & CD & LKD & LVD & KD & VD).
  pose proof HR as (SR & NR & CR & LKR & LVR & KR & VR).
  unfold sl_balance. rewrite ND, NR.
  set (bal := (length ed + length er) / 2) in *.
  assert (Hbal : bal < length ed) by (unfold bal; lia).
  destruct (Nat.ltb_spec (length ed) bal) as [?|_]; [lia|].
  set (mv := length ed - bal) in *.
  destruct (Nat.eqb_spec mv 0) as [?|_]; [lia|].
  assert (exists d0 dv edt, ed = (d0, dv) :: edt) as (d0 & dv & edt & Eed).
  { destruct ed as [|[? ?] ?]; [simpl in HL; lia|eauto]. }
  assert (Hd0 : aget (sk dl) 0 = Ok d0).
  { apply (@sl_rep_key dl [] d0 dv edt 0); auto. simpl. now rewrite <- Eed. }
  rewrite Hd0. cbn [bind].
  assert (Hr0 : exists r0, aget (sk rl) 0 = Ok r0 /\ (d0 < r0)%Z).
  { destruct er as [|[r0 rv] ert].
    - exists k. split; [auto|]. rewrite alt_in in Hk. apply Hk. rewrite Eed. simpl; auto.
    - exists r0. split; [apply (@sl_rep_key rl [] r0 rv ert 0); auto|].
      apply sorted_app in HS as (_ & _ & HS). apply HS; [rewrite Eed|]; simpl; auto. }
  destruct Hr0 as (r0 & Hr0 & Hlt). rewrite Hr0. cbn [bind].
  destruct (Z.ltb_spec d0 r0); [|lia].
  destruct (@split_at _ ed bal) as (e1 & e2 & Ee & Le1); [lia|].
  assert (Le2 : length e2 = mv) by (pose proof (f_equal (@length _) Ee) as X; rewrite app_length in X; unfold mv; lia).
  destruct (@arr_room Z (sk rl) (keys er) (length er) mv) as (DK & RK & EK & LDK & LK0); auto.
  { now rewrite keys_length. } { lia. } { unfold mv, bal in *. lia. }
  destruct (@arr_room V (sv rl) (vals er) (length er) mv) as (DV & RV & EV & LDV & LV0); auto.
  { now rewrite vals_length. } { lia. } { unfold mv, bal in *. lia. }
  rewrite (for_down_pair EK EV). cbn [bind fst snd].
  rewrite Ee, keys_app in KD. rewrite Ee, vals_app in VD.
  pose proof (@arr_copy_front Z (fun j => j) (fun j => bal + j) (sk dl) _ (keys e1) (keys e2) DK (map Some (keys er) ++ RK) mv KD eq_refl) as CK.
  pose proof (@arr_copy_front V (fun j => j) (fun j => bal + j) (sv dl) _ (vals e1) (vals e2) DV (map Some (vals er) ++ RV) mv VD eq_refl) as CV.
  rewrite keys_length in CK. rewrite vals_length in CV.
  rewrite (for_up_pair (CK (eq_sym Le2) LDK ltac:(intros; rewrite ?keys_length; lia) ltac:(auto))
                       (CV (eq_sym Le2) LDV ltac:(intros; rewrite ?vals_length; lia) ltac:(auto))).
  cbn [bind fst snd].
  rewrite Ee in HS. rewrite <- app_assoc in HS. apply sorted_app in HS as (S1 & S2 & _).
  eexists _, _, e1, e2. split; [reflexivity|]. split; [exact Ee|]. split; [lia|].
  repeat (rewrite ?app_length, ?map_length, ?keys_length, ?vals_length in LK0).
  repeat (rewrite ?app_length, ?map_length, ?keys_length, ?vals_length in LV0).
  split; unfold sl_rep; simpl.
  - splits; auto; try lia; eapply pre_app_l; eauto.
  - rewrite keys_app, vals_app.
    repeat (rewrite ?app_length, ?map_length, ?keys_length, ?vals_length).
    splits; auto; try lia.
    + eapply pre_shift_front; reflexivity.
    + eapply pre_shift_front; reflexivity.
Qed.

Lemma sl_balance_right_ok dl rl ed er k : sl_rep dl ed -> sl_hint rl er k ->
  sorted (er ++ ed) -> agt k (keys ed) -> length er < length ed -> 1 < length ed ->
  exists d' r' e1 e2, sl_balance dl rl = Ok (d', r') /\ ed = e1 ++ e2 /\
    length e2 = (length ed + length er) / 2 /\ sl_rep d' e2 /\ sl_rep r' (er ++ e1).
Proof.
  intros HD [HR Hst] HS Hk HL HL1.
  pose proof HD as (SD & ND & CD & LKD & LVD & KD & VD).
  pose proof HR as (SR & NR & CR & LKR & LVR & KR & VR).
  unfold sl_balance. rewrite ND, NR.
  set (bal := (length ed + length er) / 2) in *.
  assert (Hbal : bal < length ed) by (unfold bal; lia).
  destruct (Nat.ltb_spec (length ed) bal) as [?|_]; [lia|].
  set (mv := length ed - bal) in *.
  destruct (Nat.eqb_spec mv 0) as [?|_]; [lia|].
  assert (exists d0 dv edt, ed = (d0, dv) :: edt) as (d0 & dv & edt & Eed).
  { destruct ed as [|[? ?] ?]; [simpl in HL; lia|eauto]. }
  assert (Hd0 : aget (sk dl) 0 = Ok d0).
  { apply (@sl_rep_key dl [] d0 dv edt 0); auto. simpl. now rewrite <- Eed. }
  rewrite Hd0. cbn [bind].
  assert (Hr0 : exists r0, aget (sk rl) 0 = Ok r0 /\ (r0 < d0)%Z).
  { destruct er as [|[r0 rv] ert].
    - exists k. split; [auto|]. rewrite agt_in in Hk. apply Hk. rewrite Eed. simpl; auto.
    - exists r0. split; [apply (@sl_rep_key rl [] r0 rv ert 0); auto|].
      apply sorted_app in HS as (_ & _ & HS). apply HS; [|rewrite Eed]; simpl; auto. }
  destruct Hr0 as (r0 & Hr0 & Hlt). rewrite Hr0. cbn [bind].
  destruct (Z.ltb_spec d0 r0); [lia|].
  destruct (@split_at _ ed mv) as (e1 & e2 & Ee & Le1); [lia|].
  assert (Le2 : length e2 = bal) by (pose proof (f_equal (@length _) Ee) as X; rewrite app_length in X; unfold mv; lia).
  rewrite Ee, keys_app in KD. rewrite Ee, vals_app in VD.
  destruct (@arr_copy Z (fun i => length er + i) (fun i => i) (sk dl) (sk rl) [] (keys e1) (keys er) mv)
    as (rk & EK & PK & LK0); auto; try (intros; rewrite ?keys_length; lia).
  all: try (rewrite ?keys_length; unfold mv, bal in *; lia). { eapply pre_app_l; eauto. }
  destruct (@arr_copy V (fun i => length er + i) (fun i => i) (sv dl) (sv rl) [] (vals e1) (vals er) mv)
    as (rv & EV & PV & LV0); auto; try (intros; rewrite ?vals_length; lia).
  all: try (rewrite ?vals_length; unfold mv, bal in *; lia). { eapply pre_app_l; eauto. }
  rewrite (for_up_pair EK EV). cbn [bind fst snd].
  destruct (@arr_drop Z (sk dl) (keys e1) (keys e2) bal mv) as (dk & TK & DK & -> & LDK & _); auto;
    try (rewrite ?keys_length; lia).
  destruct (@arr_drop V (sv dl) (vals e1) (vals e2) bal mv) as (dvv & TV & DV & -> & LDV & _); auto;
    try (rewrite ?vals_length; lia).
  rewrite (for_up_pair DK DV). cbn [bind fst snd].
  rewrite Ee in HS. rewrite app_assoc in HS. apply sorted_app in HS as (S1 & S2 & _).
  eexists _, _, e1, e2. split; [reflexivity|]. split; [exact Ee|]. split; [lia|].
  split; unfold sl_rep; cbn [sn sk sv].
  - splits; auto; try lia; eexists; reflexivity.
  - rewrite keys_app, vals_app, app_length. splits; auto; try lia.
Qed.

Lemma sl_minkey_ok l es x v : sl_rep l ((x, v) :: es) -> sl_minkey l = Ok x.
Proof. intros H. now apply (@sl_rep_key l [] x v es 0). Qed.

Lemma sl_scan_from_ok l : forall b a, sl_rep l (a ++ b) ->
  sl_scan_from (length b) (length a) l = Ok b.
Proof.
  induction b as [|[x w] b IH]; intros a H; [reflexivity|].
  cbn [length sl_scan_from]. destruct (sl_rep_key H eq_refl) as [-> ->]. cbn [bind].
  replace (a ++ (x, w) :: b) with ((a ++ [(x, w)]) ++ b) in H by (rewrite <- app_assoc; reflexivity).
  replace (S (length a)) with (length (a ++ [(x, w)])) by (rewrite app_length; simpl; lia).
  rewrite IH by exact H. reflexivity.
Qed.

Lemma sl_scan_ok l es : sl_rep l es -> sl_scan l = Ok es.
Proof.
  intros H. unfold sl_scan. pose proof H as (_ & -> & _). exact (@sl_scan_from_ok l es [] H).
Qed.

Lemma filter_none {A} (f : A -> bool) l : (forall x, In x l -> f x = false) -> filter f l = [].
Proof.
  induction l as [|x l IH]; simpl; intros H; [reflexivity|].
  rewrite H by auto. apply IH. intros; apply H; auto.
Qed.

Lemma sl_range_from_ok mf lo hi l : forall b a, sl_rep l (a ++ b) ->
  exists out stop, sl_range_from mf (length b) (length a) l lo hi = Ok (out, stop) /\
    out = filter (in_range lo hi) b /\ (stop = true -> exists x, In x (keys b) /\ (hi < x)%Z).
Proof.
  induction b as [|[x w] b IH]; intros a H.
  - simpl. exists [], false. splits; auto. discriminate.
  - cbn [length sl_range_from]. destruct (sl_rep_key H eq_refl) as [-> Ev]. cbn [bind].
    assert (HSb : sorted ((x, w) :: b)) by (destruct H as (HS & _); now apply sorted_app in HS as (_ & ? & _)).
    unfold sorted in HSb. simpl in HSb. apply ssorted_cons in HSb as [_ HG]. rewrite agt_in in HG.
    assert (H' := H).
    replace (a ++ (x, w) :: b) with ((a ++ [(x, w)]) ++ b) in H' by (rewrite <- app_assoc; reflexivity).
    destruct (IH _ H') as (out & stop & E & Eo & Es).
    rewrite app_length in E. simpl in E. rewrite Nat.add_1_r in E.
    assert (HT : forall lo', (hi < x)%Z -> filter (in_range lo' hi) ((x, w) :: b) = []).
    { intros lo' Hx. apply filter_none. intros [y u] [[= <- <-]|Hy]; unfold in_range; simpl.
      - lia.
      - apply (in_map fst) in Hy. apply HG in Hy. simpl in Hy. lia. }
    destruct (Z.ltb_spec x lo) as [C1|C1]; destruct (Z.gtb_spec x hi) as [C2|C2]; destruct mf; cbn [negb andb].
    all: try (eexists _, _; split; [reflexivity|]; split; [now rewrite HT by lia|];
              intros _; exists x; simpl; split; auto; lia).
    all: try (rewrite E; eexists _, _; split; [reflexivity|]; split;
              [cbn [filter]; unfold in_range at 1; simpl; destruct (Z.leb_spec lo x); [lia|]; simpl; exact Eo|];
              intros Hst; destruct (Es Hst) as (y & Hy & Hlt); exists y; simpl; auto).
    all: rewrite Ev; cbn [bind]; rewrite E; cbn [bind fst snd]; eexists _, _; split; [reflexivity|]; split;
      [cbn [filter]; unfold in_range at 1; simpl; destruct (Z.leb_spec lo x); [|lia];
       destruct (Z.leb_spec x hi); [|lia]; simpl; now rewrite Eo|];
      intros Hst; destruct (Es Hst) as (y & Hy & Hlt); exists y; simpl; auto.
Qed.

Lemma sl_range_ok mf l es lo hi : sl_rep l es ->
  exists out stop, sl_range mf l lo hi = Ok (out, stop) /\
    out = filter (in_range lo hi) es /\ (stop = true -> exists x, In x (keys es) /\ (hi < x)%Z).
Proof.
  intros H. unfold sl_range. pose proof H as (_ & -> & _). exact (@sl_range_from_ok mf lo hi l es [] H).
Qed.

Lemma sl_range_flag_from_ok lo hi l : forall b a, sl_rep l (a ++ b) ->
  exists out stop, sl_range_flag_from (length b) (length a) l lo hi = Ok (out, stop) /\
    out = filter (in_range lo hi) b /\ (stop = true -> exists x, In x (keys b) /\ (hi < x)%Z).
Proof.
  induction b as [|[x w] b IH]; intros a H.
  - simpl. exists [], false. splits; auto. discriminate.
  - cbn [length sl_range_flag_from]. destruct (sl_rep_key H eq_refl) as [-> Ev]. cbn [bind].
    assert (H' := H).
    replace (a ++ (x, w) :: b) with ((a ++ [(x, w)]) ++ b) in H' by (rewrite <- app_assoc; reflexivity).
    destruct (IH _ H') as (out & stop & E & Eo & Es).
    rewrite app_length in E. simpl in E. rewrite Nat.add_1_r in E.
    cbn [filter]. unfold in_range at 1. cbn [fst].
    destruct (Z.ltb_spec x lo) as [C1|C1]; destruct (Z.gtb_spec x hi) as [C2|C2];
      destruct (Z.leb_spec lo x); try lia; destruct (Z.leb_spec x hi); try lia; cbn [andb].
    1,2: rewrite E; eexists _, _; splits; [reflexivity|exact Eo|];
        intros Hst; destruct (Es Hst) as (y & Hy & Hlt); exists y; simpl; auto.
    + rewrite E. cbn [bind fst]. eexists _, _. splits; [reflexivity|exact Eo|]. intros _. exists x. simpl. auto.
    + rewrite Ev. cbn [bind]. rewrite E. cbn [bind fst snd]. eexists _, _. splits; [reflexivity|now rewrite Eo|].
      intros Hst; destruct (Es Hst) as (y & Hy & Hlt); exists y; simpl; auto.
Qed.

Lemma sl_range_flag_ok l es lo hi : sl_rep l es ->
  exists out stop, sl_range_flag l lo hi = Ok (out, stop) /\
    out = filter (in_range lo hi) es /\ (stop = true -> exists x, In x (keys es) /\ (hi < x)%Z).
Proof.
  intros H. unfold sl_range_flag. pose proof H as (_ & -> & _). exact (@sl_range_flag_from_ok lo hi l es [] H).
Qed.

Lemma sl_new_ok : sl_rep (sl_new V M) [].
Proof.
  unfold sl_rep, sl_new; simpl. unfold anew. rewrite !repeat_length.
  splits; auto; try lia; try (eexists; reflexivity). constructor.
Qed.

End SLeafProofs.

(** ** Instances *)

Lemma pbp_laws V M : 2 <= M -> leaf_laws (pbp_ops V M) M (M / 2) (fun _ => True) (sl_rep M).
Proof.
  intros HM.
  assert (HP : forall a b R key, ssorted (a ++ b) -> alt key a -> age key b ->
    bsearch_pos false (map Some (a ++ b) ++ R) (length (a ++ b)) key = Ok (length a)).
  { intros. apply bsearch_pos_correct; simpl; auto. }
  constructor; simpl; intros.
  - now apply sl_new_ok.
  - now destruct H.
  - now destruct H as (_ & _ & ? & _).
  - now destruct H as (_ & ? & _).
  - eapply sl_lookup_ok; eauto.
  - eapply sl_insert_ok; eauto.
  - exists es. split; [eapply sl_scan_ok; eauto|apply Permutation_refl].
  - apply bsearch_pos_correct; simpl; auto.
Qed.

Lemma pbp_scan_laws V M : 2 <= M -> scan_laws (pbp_ops V M) (sl_rep M).
Proof.
  intros HM. constructor; simpl; intros; [eapply sl_scan_ok|eapply sl_range_ok]; eauto.
Qed.

Lemma pbp_erase_laws V M : 2 <= M -> erase_laws (pbp_ops V M) M (sl_rep M) (sl_hint M).
Proof.
  intros HM.
  assert (HP : forall a b R key, ssorted (a ++ b) -> alt key a -> age key b ->
    bsearch_pos false (map Some (a ++ b) ++ R) (length (a ++ b)) key = Ok (length a)).
  { intros. apply bsearch_pos_correct; simpl; auto. }
  constructor; [constructor|reflexivity]; simpl; intros.
  - now destruct H.
  - eapply sl_erase_ok; eauto.
  - eapply sl_merge_ok; eauto.
  - eapply sl_balance_left_ok; eauto.
  - eapply sl_balance_right_ok; eauto.
  - eapply sl_minkey_ok; eauto.
Qed.

Lemma bp_laws V M : 2 <= M -> leaf_laws (bp_ops V M) M (M / 2) (fun _ => True) (sl_rep M).
Proof.
  intros HM.
  assert (HP : forall a b R key, ssorted (a ++ b) -> alt key a -> age key b ->
    lsearch_pos false (map Some (a ++ b) ++ R) (length (a ++ b)) key = Ok (length a)).
  { intros. apply lsearch_pos_correct; simpl; auto. }
  constructor; simpl; intros.
  - now apply sl_new_ok.
  - now destruct H.
  - now destruct H as (_ & _ & ? & _).
  - now destruct H as (_ & ? & _).
  - eapply sl_lookup_ok; eauto.
  - eapply sl_insert_ok; eauto.
  - exists es. split; [eapply sl_scan_ok; eauto|apply Permutation_refl].
  - apply lsearch_pos_correct; simpl; auto.
Qed.

Lemma bp_scan_laws V M : 2 <= M -> scan_laws (bp_ops V M) (sl_rep M).
Proof.
  intros HM. constructor; simpl; intros; [eapply sl_scan_ok|eapply sl_range_ok]; eauto.
Qed.

Lemma bp_erase_laws V M : 2 <= M -> erase_laws (bp_ops V M) M (sl_rep M) (sl_hint M).
Proof.
  intros HM.
  assert (HP : forall a b R key, ssorted (a ++ b) -> alt key a -> age key b ->
    lsearch_pos false (map Some (a ++ b) ++ R) (length (a ++ b)) key = Ok (length a)).
  { intros. apply lsearch_pos_correct; simpl; auto. }
  constructor; [constructor|reflexivity]; simpl; intros.
  - now destruct H.
  - eapply sl_erase_ok; eauto.
  - eapply sl_merge_ok; eauto.
  - eapply sl_balance_left_ok; eauto.
  - eapply sl_balance_right_ok; eauto.
  - eapply sl_minkey_ok; eauto.
Qed.

Lemma hpbp_laws V M : 2 <= M -> leaf_laws (hpbp_ops V M) M (M / 2) (fun _ => True) (sl_rep M).
Proof. intros HM. destruct (pbp_laws V HM). constructor; assumption. Qed.

Lemma hpbp_scan_laws V M : 2 <= M -> scan_laws (hpbp_ops V M) (sl_rep M).
Proof.
  intros HM. constructor; simpl; intros; [eapply sl_scan_ok|eapply sl_range_flag_ok]; eauto.
Qed.

Lemma hpbp_erase_laws V M : 2 <= M -> erase_laws (hpbp_ops V M) M (sl_rep M) (sl_hint M).
Proof. intros HM. destruct (pbp_erase_laws V HM) as [[] ?]. constructor; [constructor|]; assumption. Qed.

(** Erase of an absent key, where the slot compared with it is live or holds another key. *)
Definition absent_law V M (O : leafops (sleaf V) V) : Prop := forall l es k, sl_rep M l es -> get k es = None -> sn l <> 0 ->
  ((exists i x, i < sn l /\ aget (sk l) i = Ok x /\ (k < x)%Z) \/ (exists x, aget (sk l) (sn l) = Ok x /\ x <> k)) ->
  lo_erase O l k = Ok (false, l) /\ sl_hint M l es k.
Lemma pbp_absent V M : 2 <= M -> absent_law M (pbp_ops V M).
Proof. intros HM l es k. apply sl_absent_ok; [assumption|]. intros. apply bsearch_pos_correct; simpl; auto. Qed.
Lemma bp_absent V M : 2 <= M -> absent_law M (bp_ops V M).
Proof. intros HM l es k. apply sl_absent_ok; [assumption|]. intros. apply lsearch_pos_correct; simpl; auto. Qed.
Lemma hpbp_absent V M : 2 <= M -> absent_law M (hpbp_ops V M).
Proof. exact (@pbp_absent V M). Qed.
