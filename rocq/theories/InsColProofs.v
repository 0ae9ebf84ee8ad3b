(** Inserting a value into one column of a block. *)
From Verif Require Import Base SerModel SerProofs BlockModel BlockSpec BlockBytes ColProofs.
Open Scope Z_scope.

Section InsCol.
Variables (dlt : Z -> Z -> bool) (dv : Z -> Prop).
Hypothesis Hd : dbl_order dv dlt.
Notation attr_ok := (attr_ok dv).
Notation lt := (lt_attr dlt).
Notation colrep := (colrep dlt).
Notation bounds := (bounds dlt).

(** The part of [insert_col] for columns of fixed width. *)
Definition ins_fixed (c : col) (b : block) (sma dat cnt v : Z) : res (block * Z * Z) :=
  let w := Z.of_nat (fixed_width c) in
  let off := dat + cnt * w in
  do b1 <- put_fixed c b off v;
  do mn <- get_fixed c b1 sma;
  do b2 <- if fixed_lt dlt c v mn || (cnt =? 0) then put_fixed c b1 sma v else Ok b1;
  do mx <- get_fixed c b2 (sma + w);
  do b3 <- if fixed_lt dlt c mx v || (cnt =? 0) then put_fixed c b2 (sma + w) v else Ok b2;
  Ok (b3, w16 off, w).

Lemma sma_fixed c : c <> CStr -> sma_size c = 2 * wz c.
Proof. destruct c; [reflexivity|reflexivity|congruence]. Qed.
Lemma wz_pos c : 2 <= wz c.
Proof. destruct c; cbv; congruence. Qed.

Lemma nth_error_snoc (A : Type) (l : list A) x j y : nth_error (l ++ [x]) j = Some y ->
  (nth_error l j = Some y /\ (j < length l)%nat) \/ (j = length l /\ y = x).
Proof.
  intros E. destruct (Nat.lt_ge_cases j (length l)) as [L|L].
  - rewrite nth_error_app1 in E by exact L. auto.
  - rewrite nth_error_app2 in E by exact L. right. destruct (j - length l)%nat as [|k] eqn:Ek.
    + cbn in E. injection E as <-. split; [lia|reflexivity].
    + cbn in E. destruct k; discriminate.
Qed.

Lemma fixed_dec c v v' : c <> CStr -> attr_ok c v -> attr_ok c v' ->
  (fixed_lt dlt c (raw v) (raw v') = true /\ lt v v') \/ (fixed_lt dlt c (raw v) (raw v') = false /\ ~ lt v v').
Proof.
  intros Hc H H'. pose proof (@fixed_attr dlt dv c v v' Hc H H') as F.
  destruct (fixed_lt dlt c (raw v) (raw v')); [left|right]; split; auto; try tauto.
  intros L. apply F in L. discriminate.
Qed.

Lemma ins_fixed_spec c b s e vals a : c <> CStr ->
  0 <= s -> s + sma_size c + used (vals ++ [a]) <= e -> e <= block_size ->
  Forall (attr_ok c) vals -> attr_ok c a -> colrep c s e vals b ->
  exists b', ins_fixed c b s (s + sma_size c) (Z.of_nat (length vals)) (raw a)
             = Ok (b', offset c s e (vals ++ [a]) (length vals), attr_bytes a) /\
    same_out b b' s e /\ colrep c s e (vals ++ [a]) b'.
Proof.
  intros Hc H0 Hu He Hv Ha (HI & HB).
  assert (Hva : Forall (attr_ok c) (vals ++ [a])) by (apply Forall_app; auto).
  rewrite (@used_fixed dv c _ Hc Hva) in Hu. rewrite app_length in Hu. cbn [length] in Hu.
  unfold ins_fixed. cbv zeta. change (Z.of_nat (fixed_width c)) with (wz c).
  pose proof (@wz_pos c) as W. rewrite (sma_fixed Hc) in *. set (w := wz c) in *.
  set (p := s + 2 * w + Z.of_nat (length vals) * w) in *.
  assert (Hp : s + 2 * w <= p /\ p + w <= e) by (unfold p; nia).
  unfold put_fixed, get_fixed.
  destruct (@put_ok (fixed_width c) b p (raw a)) as (b1 & E1 & S1 & R1); [lia|fold (wz c); fold w; lia|].
  fold (wz c) in S1; fold w in S1. rewrite E1. cbn [bind].
  assert (OFF : w16 p = offset c s e (vals ++ [a]) (length vals)).
  { unfold w16. rewrite Z.mod_small by (unfold block_size in He; lia). destruct c; try congruence; reflexivity. }
  assert (AB : w = attr_bytes a) by (unfold w, wz; destruct c, a; cbn in Ha |- *; tauto || congruence).
  assert (WS : same_out b b1 s e) by (eapply same_out_wider; [exact S1|lia|lia]).
  (* the values already there *)
  assert (OLD : forall b2, same_out b1 b2 s (s + 2 * w) ->
            forall j v, nth_error (vals ++ [a]) j = Some v -> item c s e (vals ++ [a]) b2 j v).
  { intros b2 S2 j v E. apply nth_error_snoc in E. 
    assert (IT : forall l q x, item c s e l q j x <-> reg q (s + 2 * w + Z.of_nat j * w) (image (fixed_width c) (raw x))).
    { intros l q x. unfold item. rewrite (sma_fixed Hc). unfold w. destruct c; [reflexivity|reflexivity|congruence]. }
    apply IT. destruct E as [(E & J)|(-> & ->)].
    - apply HI in E. apply IT in E. eapply reg_frame; [exact S2|nia|right; nia|].
      eapply reg_frame; [exact S1|nia|left; rewrite image_length; fold (wz c); fold w; unfold p; nia|exact E].
    - eapply reg_frame; [exact S2|unfold p in Hp; lia|right; unfold p in Hp; lia|]. exact R1. }
  assert (SA : forall l q x b2, sma_at c e l b2 q x <-> reg b2 q (image (fixed_width c) (raw x))).
  { intros. destruct c; [reflexivity|reflexivity|congruence]. }
  assert (G : forall b2 q x, attr_ok c x -> reg b2 q (image (fixed_width c) (raw x)) ->
                get (fixed_width c) (fixed_signed c) b2 q = Ok (raw x)).
  { intros b2 q x Hx R. apply get_reg; [exact R|]. now apply (@fixed_int_ok dv). }
  assert (PUT : forall b2 q, s <= q -> q + w <= s + 2 * w -> exists b3, put (fixed_width c) b2 q (raw a) = Ok b3 /\
            same_out b2 b3 q (q + w) /\ reg b3 q (image (fixed_width c) (raw a))).
  { intros b2 q Q1 Q2. apply put_ok; [lia|]. fold (wz c); fold w. lia. }
  destruct vals as [|v0 vs].
  - (* first row *)
    cbn [length Z.of_nat] in *. destruct (@get_ok (fixed_width c) (fixed_signed c) b1 s) as [z0 ->]; [lia|fold (wz c); fold w; lia|].
    cbn [bind]. rewrite Z.eqb_refl, orb_true_r.
    destruct (PUT b1 s) as (b2 & E2 & S2 & R2); [lia|lia|]. rewrite E2. cbn [bind].
    destruct (@get_ok (fixed_width c) (fixed_signed c) b2 (s + w)) as [z1 ->]; [lia|fold (wz c); fold w; lia|].
    cbn [bind]. rewrite orb_true_r.
    destruct (PUT b2 (s + w)) as (b3 & E3 & S3 & R3); [lia|lia|]. rewrite E3. cbn [bind].
    assert (S13 : same_out b1 b3 s (s + 2 * w)).
    { eapply same_out_trans; [eapply same_out_wider; [exact S2|lia|lia]|eapply same_out_wider; [exact S3|lia|lia]]. }
    exists b3. rewrite OFF, AB. splits; [reflexivity| |].
    + eapply same_out_trans; [exact WS|]. eapply same_out_wider; [exact S13|lia|lia].
    + split; [apply OLD; exact S13|]. intros _. exists a, a. cbn [app]. splits.
      * apply (@bounds_one dlt dv Hd c). exact Ha.
      * apply SA. eapply reg_frame; [exact S3|lia|left; rewrite image_length; fold (wz c); fold w; lia|exact R2].
      * apply SA. exact R3.
  - destruct (HB ltac:(discriminate)) as (mn & mx & B & M1 & M2). apply SA in M1, M2. fold w in M2.
    remember (v0 :: vs) as vals eqn:Evals.
    assert (Hcnt : (Z.of_nat (length vals) =? 0) = false) by (apply Z.eqb_neq; rewrite Evals; cbn [length]; lia).
    destruct B as (I1 & I2 & B). assert (BB : bounds mn mx vals) by (unfold ColProofs.bounds; auto).
    assert (Hmn : attr_ok c mn) by (rewrite Forall_forall in Hv; auto).
    assert (Hmx : attr_ok c mx) by (rewrite Forall_forall in Hv; auto).
    assert (M1' : reg b1 s (image (fixed_width c) (raw mn))).
    { eapply reg_frame; [exact S1|lia|left; rewrite image_length; fold (wz c); fold w; lia|exact M1]. }
    assert (M2' : reg b1 (s + w) (image (fixed_width c) (raw mx))).
    { eapply reg_frame; [exact S1|lia|left; rewrite image_length; fold (wz c); fold w; lia|exact M2]. }
    rewrite (G _ _ _ Hmn M1'). cbn [bind]. rewrite Hcnt, !orb_false_r.
    destruct (@fixed_dec c a mn Hc Ha Hmn) as [(-> & L)|(-> & L)].
    + destruct (PUT b1 s) as (b2 & E2 & S2 & R2); [lia|lia|]. rewrite E2. cbn [bind].
      assert (M2'' : reg b2 (s + w) (image (fixed_width c) (raw mx))).
      { eapply reg_frame; [exact S2|lia|right; lia|exact M2']. }
      rewrite (G _ _ _ Hmx M2''). cbn [bind].
      destruct (@fixed_dec c mx a Hc Hmx Ha) as [(-> & L')|(-> & L')].
      { exfalso. exact (@bounds_no_both dlt dv Hd c mn mx vals a Hv Ha BB L L'). }
      cbn [bind]. assert (S13 : same_out b1 b2 s (s + 2 * w)) by (eapply same_out_wider; [exact S2|lia|lia]).
      exists b2. rewrite OFF, AB. splits; [reflexivity| |].
      * eapply same_out_trans; [exact WS|]. eapply same_out_wider; [exact S13|lia|lia].
      * split; [apply OLD; exact S13|]. intros _. exists a, mx. splits.
        -- eapply (@bounds_min dlt dv Hd c); eauto.
        -- apply SA. exact R2.
        -- apply SA. exact M2''.
    + cbn [bind]. rewrite (G _ _ _ Hmx M2'). cbn [bind].
      destruct (@fixed_dec c mx a Hc Hmx Ha) as [(-> & L')|(-> & L')].
      * destruct (PUT b1 (s + w)) as (b2 & E2 & S2 & R2); [lia|lia|]. rewrite E2. cbn [bind].
        assert (S13 : same_out b1 b2 s (s + 2 * w)) by (eapply same_out_wider; [exact S2|lia|lia]).
        exists b2. rewrite OFF, AB. splits; [reflexivity| |].
        -- eapply same_out_trans; [exact WS|]. eapply same_out_wider; [exact S13|lia|lia].
        -- split; [apply OLD; exact S13|]. intros _. exists mn, a. splits.
           ++ eapply (@bounds_max dlt dv Hd c); eauto.
           ++ apply SA. eapply reg_frame; [exact S2|lia|left; rewrite image_length; fold (wz c); fold w; lia|exact M1'].
           ++ apply SA. exact R2.
      * cbn [bind]. exists b1. rewrite OFF, AB. splits; [reflexivity|exact WS|].
        split; [apply OLD; apply same_out_refl|]. intros _. exists mn, mx. splits.
        -- apply bounds_keep; auto.
        -- apply SA. exact M1'.
        -- apply SA. exact M2'.
Qed.

(** The part of [insert_col] for strings. *)
Definition ins_str (top : Z) (b : block) (sma dat cnt : Z) (s : list Z) : res (block * Z * Z) :=
  let size := Z.of_nat (length s) + 1 in
  let opos := w32 (dat + cnt * 2) in
  let tgt := w16 (top - size) in
  do b1 <- put 2 b opos tgt;
  do b2 <- wrs b1 tgt (s ++ [0]);
  do b3 <- (if cnt =? 0 then do x <- put 2 b2 sma tgt; put 2 x (sma + 2) tgt
            else
              do mnp <- u16 b2 sma;
              do mxp <- u16 b2 (sma + 2);
              do mn <- string_at b2 mnp;
              do mx <- string_at b2 mxp;
              if str_lt s mn then put 2 b2 sma tgt
              else if str_lt mx s then put 2 b2 (sma + 2) tgt else Ok b2);
  Ok (b3, tgt, size + 2).

Lemma ins_str_spec b s e vals str :
  let a := AStr str in
  0 <= s -> s + 4 + used (vals ++ [a]) <= e -> e <= block_size ->
  Forall (attr_ok CStr) vals -> attr_ok CStr a -> colrep CStr s e vals b ->
  exists b', ins_str (e - zsum (map slen vals)) b s (s + 4) (Z.of_nat (length vals)) str
             = Ok (b', offset CStr s e (vals ++ [a]) (length vals), attr_bytes a) /\
    same_out b b' s e /\ colrep CStr s e (vals ++ [a]) b'.
Proof.
  intros a H0 Hu He Hv Ha (HI & HB).
  assert (Hva : Forall (attr_ok CStr) (vals ++ [a])) by (apply Forall_app; auto).
  assert (SL : slen a = Z.of_nat (length str) + 1) by reflexivity.
  rewrite (used_str Hva), map_app, zsum_app, app_length in Hu. cbn [map length] in Hu.
  replace (zsum [slen a]) with (slen a) in Hu by (cbn; lia).
  pose proof (@slens_nonneg vals) as Hz. pose proof (@slen_pos a) as Hs.
  unfold ins_str. cbv zeta. rewrite <- SL.
  set (cnt := Z.of_nat (length vals)) in *. set (tgt := e - zsum (map slen vals) - slen a).
  assert (HT : soff e (vals ++ [a]) (length vals) = tgt) by (apply soff_last).
  unfold block_size in He.
  assert (Ht : s + 4 + 2 * cnt + 2 <= tgt /\ tgt + slen a <= e) by (unfold tgt, cnt in *; lia).
  replace (w16 tgt) with tgt by (unfold w16; symmetry; apply Z.mod_small; lia).
  replace (w32 (s + 4 + cnt * 2)) with (s + 4 + cnt * 2) by (unfold w32; symmetry; apply Z.mod_small; unfold cnt; lia).
  destruct (@put_ok 2 b (s + 4 + cnt * 2) tgt) as (b1 & E1 & S1 & R1); [unfold cnt; lia|unfold block_size, cnt in *; lia|].
  rewrite E1. cbn [bind]. change (Z.of_nat 2) with 2 in S1.
  destruct (@wrs_ok (str ++ [0]) b1 tgt) as (b2 & E2 & S2 & R2); [unfold cnt in *; lia| |].
  { rewrite app_length. cbn [length]. unfold block_size. lia. }
  rewrite E2. cbn [bind].
  assert (LL : Z.of_nat (length (str ++ [0])) = slen a) by (rewrite app_length; cbn [length]; lia).
  rewrite LL in S2.
  assert (C0 : 0 <= cnt) by (unfold cnt; lia).
  assert (WS : same_out b b2 s e).
  { eapply same_out_trans; [eapply same_out_wider; [exact S1|lia|lia]|eapply same_out_wider; [exact S2|lia|lia]]. }
  (* offsets of earlier values *)
  assert (SO : forall j v, nth_error vals j = Some v -> tgt + slen a <= soff e vals j /\ soff e vals j + slen v <= e).
  { intros j v E. rewrite (soff_step e E). pose proof (@slens_nonneg (firstn j vals)).
    unfold soff, tgt. pose proof (@zsum_firstn_le vals (S j)). lia. }
  assert (O1 : forall j v, nth_error vals j = Some v -> reg b2 (soff e vals j) (str_of v ++ [0])).
  { intros j v E. destruct (HI j v E) as (_ & R). destruct (SO j v E) as (Q1 & Q2).
    eapply reg_frame; [exact S2|lia|right; lia|]. eapply reg_frame; [exact S1|lia|right; lia|exact R]. }
  assert (R1' : reg b2 (s + 4 + cnt * 2) (image 2 tgt)).
  { eapply reg_frame; [exact S2|lia|left; rewrite image_length; lia|exact R1]. }
  assert (OLD : forall b3, same_out b2 b3 s (s + 4) ->
            forall j v, nth_error (vals ++ [a]) j = Some v -> item CStr s e (vals ++ [a]) b3 j v).
  { intros b3 S3 j v E. apply nth_error_snoc in E. cbn [item]. destruct E as [(E & J)|(-> & ->)].
    - rewrite soff_app by exact J. destruct (SO j v E) as (Q1 & Q2). split.
      + destruct (HI j v E) as (R & _). eapply reg_frame; [exact S3|lia|right; lia|].
        eapply reg_frame; [exact S2|lia|left; rewrite image_length; unfold cnt in *; lia|].
        eapply reg_frame; [exact S1|lia|left; rewrite image_length; unfold cnt in *; lia|exact R].
      + eapply reg_frame; [exact S3|lia|right; lia|]. now apply O1.
    - rewrite HT. split.
      + eapply reg_frame; [exact S3|lia|right; lia|]. exact R1'.
      + eapply reg_frame; [exact S3|lia|right; lia|]. exact R2. }
  assert (LAST : nth_error (vals ++ [a]) (length vals) = Some a).
  { rewrite nth_error_app2 by lia. now rewrite Nat.sub_diag. }
  assert (SMA : forall b3 q, reg b3 q (image 2 tgt) -> sma_at CStr e (vals ++ [a]) b3 q a).
  { intros b3 q R. exists (length vals). split; [exact LAST|]. now rewrite HT. }
  assert (PUT : forall bx q, s <= q -> q + 2 <= s + 4 -> exists b3, put 2 bx q tgt = Ok b3 /\
            same_out bx b3 q (q + 2) /\ reg b3 q (image 2 tgt)).
  { intros bx q Q1 Q2. apply (@put_ok 2); [lia|]. unfold block_size. lia. }
  unfold offset. rewrite HT. change (attr_bytes a) with (slen a + 2).
  destruct vals as [|v0 vs].
  - (* first row *)
    replace (cnt =? 0) with true by reflexivity.
    destruct (PUT b2 s) as (b3 & E3 & S3 & R3); [lia|lia|]. rewrite E3. cbn [bind].
    destruct (PUT b3 (s + 2)) as (b4 & E4 & S4 & R4); [lia|lia|]. rewrite E4. cbn [bind].
    assert (S24 : same_out b2 b4 s (s + 4)).
    { eapply same_out_trans; [eapply same_out_wider; [exact S3|lia|lia]|eapply same_out_wider; [exact S4|lia|lia]]. }
    exists b4. splits; [reflexivity| |].
    + eapply same_out_trans; [exact WS|]. eapply same_out_wider; [exact S24|lia|lia].
    + split; [apply OLD; exact S24|]. intros _. exists a, a. splits.
      * apply (@bounds_one dlt dv Hd CStr). exact Ha.
      * apply SMA. eapply reg_frame; [exact S4|lia|left; rewrite image_length; lia|exact R3].
      * apply SMA. exact R4.
  - destruct (HB ltac:(discriminate)) as (mn & mx & B & M1 & M2). change (wz CStr) with 2 in M2.
    remember (v0 :: vs) as vals eqn:Evals.
    replace (cnt =? 0) with false by (symmetry; apply Z.eqb_neq; unfold cnt; rewrite Evals; cbn [length]; lia).
    destruct M1 as (j1 & J1 & M1), M2 as (j2 & J2 & M2).
    destruct B as (I1 & I2 & B). assert (BB : bounds mn mx vals) by (unfold ColProofs.bounds; auto).
    assert (Hmn : attr_ok CStr mn) by (rewrite Forall_forall in Hv; auto).
    assert (Hmx : attr_ok CStr mx) by (rewrite Forall_forall in Hv; auto).
    assert (FR : forall q l, s <= q -> q + Z.of_nat (length l) <= s + 4 -> reg b q l -> reg b2 q l).
    { intros q l Q1 Q2 R. eapply reg_frame; [exact S2|lia|left; lia|]. eapply reg_frame; [exact S1|lia|left; lia|exact R]. }
    apply FR in M1; [|lia|rewrite image_length; lia]. apply FR in M2; [|lia|rewrite image_length; lia].
    destruct (SO _ _ J1) as (P1 & P1'), (SO _ _ J2) as (P2 & P2').
    pose proof (@slen_pos mn). pose proof (@slen_pos mx).
    rewrite (u16_reg M1) by lia. cbn [bind]. rewrite (u16_reg M2) by lia. cbn [bind].
    rewrite (string_reg (O1 _ _ J1)) by (now apply (@str_ok_nonul dv)). cbn [bind].
    rewrite (string_reg (O1 _ _ J2)) by (now apply (@str_ok_nonul dv)). cbn [bind].
    assert (KEEP1 : forall b3, reg b3 s (image 2 (soff e vals j1)) -> sma_at CStr e (vals ++ [a]) b3 s mn).
    { intros b3 R. exists j1. split; [rewrite nth_error_app1; [exact J1|apply nth_error_Some; congruence]|].
      rewrite soff_app; [exact R|apply nth_error_Some; congruence]. }
    assert (KEEP2 : forall b3, reg b3 (s + 2) (image 2 (soff e vals j2)) -> sma_at CStr e (vals ++ [a]) b3 (s + 2) mx).
    { intros b3 R. exists j2. split; [rewrite nth_error_app1; [exact J2|apply nth_error_Some; congruence]|].
      rewrite soff_app; [exact R|apply nth_error_Some; congruence]. }
    assert (DEC : forall x y, attr_ok CStr x -> attr_ok CStr y -> (str_lt (str_of x) (str_of y) = true <-> lt x y)).
    { intros [| |x] [| |y]; cbn; tauto. }
    change str with (str_of a).
    destruct (str_lt (str_of a) (str_of mn)) eqn:L1.
    + apply DEC in L1; [|exact Ha|exact Hmn].
      destruct (PUT b2 s) as (b3 & E3 & S3 & R3); [lia|lia|]. rewrite E3. cbn [bind].
      assert (S23 : same_out b2 b3 s (s + 4)) by (eapply same_out_wider; [exact S3|lia|lia]).
      exists b3. splits; [reflexivity| |].
      * eapply same_out_trans; [exact WS|]. eapply same_out_wider; [exact S23|lia|lia].
      * split; [apply OLD; exact S23|]. intros _. exists a, mx. splits.
        -- eapply (@bounds_min dlt dv Hd CStr); eauto.
        -- apply SMA. exact R3.
        -- apply KEEP2. eapply reg_frame; [exact S3|lia|right; lia|exact M2].
    + assert (N1 : ~ lt a mn) by (intros L; apply DEC in L; [congruence|exact Ha|exact Hmn]).
      destruct (str_lt (str_of mx) (str_of a)) eqn:L2.
      * apply DEC in L2; [|exact Hmx|exact Ha].
        destruct (PUT b2 (s + 2)) as (b3 & E3 & S3 & R3); [lia|lia|]. rewrite E3. cbn [bind].
        assert (S23 : same_out b2 b3 s (s + 4)) by (eapply same_out_wider; [exact S3|lia|lia]).
        exists b3. splits; [reflexivity| |].
        -- eapply same_out_trans; [exact WS|]. eapply same_out_wider; [exact S23|lia|lia].
        -- split; [apply OLD; exact S23|]. intros _. exists mn, a. splits.
           ++ eapply (@bounds_max dlt dv Hd CStr); eauto.
           ++ apply KEEP1. eapply reg_frame; [exact S3|lia|left; rewrite image_length; lia|exact M1].
           ++ apply SMA. exact R3.
      * assert (N2 : ~ lt mx a) by (intros L; apply DEC in L; [congruence|exact Hmx|exact Ha]).
        cbn [bind]. exists b2. splits; [reflexivity|exact WS|].
        split; [apply OLD; apply same_out_refl|]. intros _. exists mn, mx. splits.
        -- apply bounds_keep; auto.
        -- apply KEEP1. exact M1.
        -- apply KEEP2. exact M2.
Qed.

(** ** One column *)
Lemma used_nonneg vals : 0 <= used vals.
Proof.
  unfold used. induction vals as [|a l IH]; [cbn; lia|]. cbn [map]. unfold zsum in *. cbn [fold_right].
  assert (0 <= attr_bytes a) by (destruct a; cbn [attr_bytes]; lia). lia.
Qed.
Lemma used_length vals : 2 * Z.of_nat (length vals) <= used vals.
Proof.
  unfold used. induction vals as [|a l IH]; [cbn; lia|]. cbn [map length]. unfold zsum in *. cbn [fold_right].
  assert (2 <= attr_bytes a) by (destruct a; cbn [attr_bytes]; lia). lia.
Qed.
Lemma sma_pos c : 4 <= sma_size c.
Proof. destruct c; cbn; lia. Qed.

Lemma insert_col_spec n b i c s e vals a :
  0 <= s -> s + sma_size c + used (vals ++ [a]) <= e -> e <= block_size ->
  reg b (sma_off_pos + i * 4) (image 2 s) -> reg b (data_off_pos + i * 4) (image 2 (s + sma_size c)) ->
  reg b count_pos (image 4 (Z.of_nat (length vals))) -> page_end n b i = Ok e ->
  Forall (attr_ok c) vals -> attr_ok c a -> colrep c s e vals b ->
  exists b', insert_col dlt n b i c a = Ok (b', offset c s e (vals ++ [a]) (length vals), attr_bytes a) /\
    same_out b b' s e /\ colrep c s e (vals ++ [a]) b'.
Proof.
  intros H0 Hu He R1 R2 R3 PE Hv Ha HC.
  pose proof (@used_length (vals ++ [a])) as UL. rewrite app_length in UL. cbn [length] in UL.
  pose proof (@sma_pos c). unfold block_size in He.
  unfold insert_col. rewrite (u16_reg R1) by lia. cbn [bind]. rewrite (u16_reg R2) by lia. cbn [bind].
  rewrite (u32_reg R3) by lia. cbn [bind].
  destruct c, a as [z|z|str]; cbn in Ha; try tauto.
  - apply (@ins_fixed_spec CInt b s e vals (AInt z)); auto; discriminate.
  - apply (@ins_fixed_spec CDbl b s e vals (ADbl z)); auto; discriminate.
  - destruct (@ins_str_spec b s e vals str) as (b' & E & X); auto.
    exists b'. split; [|exact X]. rewrite <- E. clear E X.
    assert (T : (if Z.of_nat (length vals) =? 0 then page_end n b i
              else u16 b (w32 (s + sma_size CStr + Z.of_nat (length vals) * 2) - 2)) = Ok (e - zsum (map slen vals))).
    { destruct vals as [|v0 vs].
      - cbn [length Z.of_nat Z.eqb]. rewrite PE. f_equal. cbn. lia.
      - destruct (Z.eqb_spec (Z.of_nat (length (v0 :: vs))) 0) as [C|_]; [cbn [length] in C; lia|].
        destruct HC as (HI & _).
        destruct (@nth_error_Some attr (v0 :: vs) (length vs)) as (_ & Hx). cbn [length] in Hx.
        destruct (nth_error (v0 :: vs) (length vs)) as [v|] eqn:Ev; [|exfalso; apply Hx; [lia|reflexivity]].
        destruct (HI _ _ Ev) as (R & _).
        assert (SO : soff e (v0 :: vs) (length vs) = e - zsum (map slen (v0 :: vs))).
        { unfold soff. now rewrite firstn_all2 by (cbn [length]; lia). }
        rewrite SO in R. unfold w32. cbn [sma_size] in *. cbn [length] in *. rewrite Z.mod_small by lia.
        replace (s + 4 + Z.of_nat (S (length vs)) * 2 - 2) with (s + 4 + Z.of_nat (length vs) * 2) by lia.
        apply u16_reg; [exact R|].
        rewrite (@used_str dv) in Hu by (apply Forall_app; auto). rewrite map_app, zsum_app in Hu.
        pose proof (@slens_nonneg (v0 :: vs)). pose proof (@slen_pos (AStr str)).
        replace (zsum (map slen [AStr str])) with (slen (AStr str)) in Hu by (cbn; lia). lia. }
    cbv zeta. rewrite T. cbn [bind]. reflexivity.
Qed.

(** ** Reading values back *)
Lemma get_attr_item c s e vals b j v :
  attr_ok c v -> item c s e vals b j v -> get_attr b c (offset c s e vals j) = Ok v.
Proof.
  intros Hv HI. destruct c, v as [z|z|str]; cbn in Hv; try tauto; cbn [item offset get_attr] in *.
  - unfold get_fixed. rewrite (get_reg HI); [reflexivity|exact Hv].
  - unfold get_fixed. rewrite (get_reg HI); [reflexivity|apply Hv].
  - destruct HI as (_ & R). rewrite (string_reg R); [reflexivity|]. now apply (@str_ok_nonul dv (AStr str)).
Qed.

Lemma offset_app c s e vals a j : (j < length vals)%nat -> offset c s e (vals ++ [a]) j = offset c s e vals j.
Proof. intros H. destruct c; [reflexivity|reflexivity|]. now apply soff_app. Qed.
End InsCol.
