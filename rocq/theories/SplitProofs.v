(** Splitting a block. *)
From Coq Require Import Permutation.
From Verif Require Import Base SerModel SerProofs BdccModel BdccSpec BdccProofs BlockModel PTableModel BlockSpec
  LayoutProofs BlockBytes ColProofs InsColProofs BlockProofs InitProofs TableSpec TableProofs.
Open Scope Z_scope.

Section Split.
Variables (P : params) (dv : Z -> Prop).
Hypothesis HP : params_ok P dv.
Notation cs := (cols P).
Notation pages := (pages_of (cols P)).
Notation top_value := (2 ^ Z.of_nat (num_bins (dims P)) - 1).
Notation noderep := (noderep P dv).
Notation ixok := (ixok P).
Notation tinv := (tinv P dv).
Notation xv := (xv P).

Lemma key_read g n j t : noderep g n -> nth_error (grows g) j = Some t ->
  exists kcol, u16 (blk n) (data_off_pos + Z.of_nat (kc P) * 4) = Ok kcol /\
    u16 (blk n) (w16 (kcol + Z.of_nat j * 4)) = Ok (keyz P t).
Proof.
  intros H Ej. pose proof (lay HP) as L. destruct (layout_page L (p_key HP)) as (p & Ep).
  destruct (r_ent (n_b H) (p_key HP) Ep) as (_ & R). pose proof L as (CH & _). destruct (chained_nth CH Ep) as (V1 & V2 & V3).
  assert (It : In t (grows g)) by (eapply nth_error_In; eauto).
  pose proof (n_rows H) as Hr. rewrite Forall_forall in Hr. destruct (Hr t It) as ((Htp & Ek & Hk & _) & _).
  destruct (r_col (n_b H) (p_key HP) Ep) as (HI & _). specialize (HI j (AInt (keyz P t))).
  rewrite column_nth, Ej in HI. cbn [option_map] in HI. rewrite (nth_error_nth _ _ _ Ek) in HI. specialize (HI eq_refl).
  cbn [item] in HI. unfold wz in HI. cbn [fixed_width raw sma_size] in HI. change (Z.of_nat 4) with 4 in HI.
  unfold block_size, hdr, header_fixed in *. cbn [sma_size] in R.
  exists (fst p + 8). split; [apply u16_reg; [exact R|lia]|].
  destruct (reg_range HI) as (Q1 & Q2); [discriminate|]. rewrite image_length in Q2. unfold block_size in Q2.
  unfold w16. rewrite Z.mod_small by lia. apply u16_reg; [|lia]. now apply reg_prefix.
Qed.

Lemma fits_less rows rows' : (forall i, used (column i rows) <= used (column i rows')) -> fits cs pages rows' -> fits cs pages rows.
Proof. intros H F i c p Ec Ep. specialize (F i c p Ec Ep). specialize (H i). lia. Qed.

Lemma firstn_snoc (A : Type) (l : list A) j x : nth_error l j = Some x -> firstn (S j) l = firstn j l ++ [x].
Proof.
  revert j; induction l as [|a l IH]; intros [|j] E; try discriminate; cbn [nth_error firstn app] in *.
  - now injection E as <-.
  - f_equal. now apply IH.
Qed.
Lemma skipn_cons (A : Type) (l : list A) j x : nth_error l j = Some x -> skipn j l = x :: skipn (S j) l.
Proof.
  revert j; induction l as [|a l IH]; intros [|j] E; try discriminate; cbn [nth_error skipn] in *.
  - now injection E as <-.
  - now apply IH.
Qed.

Lemma perm_mid (A : Type) (a b c : list A) x : Permutation (a ++ (b ++ [x]) ++ c) (x :: a ++ b ++ c).
Proof.
  rewrite <- app_assoc. cbn [app]. rewrite app_assoc. symmetry. rewrite app_assoc. apply Permutation_middle.
Qed.

Lemma used_cols_app rows rows' i : used (column i (rows ++ rows')) = used (column i rows) + used (column i rows').
Proof. unfold column, used. now rewrite !map_app, zsum_app. Qed.
Lemma used_cols_firstn rows j i : used (column i (firstn j rows)) <= used (column i rows).
Proof.
  pose proof (@used_cols_app (firstn j rows) (skipn j rows) i) as E. rewrite firstn_skipn in E.
  pose proof (@used_nonneg (column i (skipn j rows))). lia.
Qed.

Lemma existsb_del j dl : existsb (Z.eqb (Z.of_nat j)) (map Z.of_nat dl) = existsb (Nat.eqb j) dl.
Proof.
  induction dl as [|a dl IH]; cbn [map existsb]; [reflexivity|]. rewrite IH. f_equal.
  destruct (Nat.eqb_spec j a), (Z.eqb_spec (Z.of_nat j) (Z.of_nat a)); try reflexivity; lia.
Qed.

Section Move.
Variables (old n1 n2 : nat) (go : gnode) (split bmax : Z) (lo1 hi1 lo2 hi2 : Z).
Hypothesis (D1 : old <> n1) (D2 : old <> n2) (D3 : n1 <> n2).
Let len := length (grows go).
Definition goes1 (j : nat) (t : tuple) : bool :=
  if split =? bmax then Z.of_nat j <? Z.of_nat len / 2 else xv t <=? split.
(** How many of the rows from position [j] on go to the first and to the second block at most. *)
Fixpoint ones (j : nat) (rows : list tuple) : nat :=
  match rows with [] => 0 | t :: r => (if goes1 j t then 1 else 0) + ones (S j) r end.
Fixpoint twos (j : nat) (rows : list tuple) : nat :=
  match rows with [] => 0 | t :: r => (if goes1 j t then 0 else 1) + twos (S j) r end.
Hypothesis Hch : forall j t, nth_error (grows go) j = Some t ->
  if goes1 j t then lo1 <= xv t <= hi1 else lo2 <= xv t <= hi2.

Lemma move_rows_spec : forall n pos gs t A g1 g2,
  (pos + n = len)%nat -> Forall2 noderep gs (nodes t) ->
  nth_error gs old = Some go -> nth_error gs n1 = Some g1 -> nth_error gs n2 = Some g2 ->
  gdel g1 = [] -> gdel g2 = [] -> glo g1 = lo1 -> ghi g1 = hi1 -> glo g2 = lo2 -> ghi g2 = hi2 ->
  (forall i, used (column i (grows g1)) + used (column i (grows g2)) <= used (column i (firstn pos (grows go)))) ->
  (length (grows g1) + length (grows g2) <= pos)%nat ->
  ixok gs (index t) (nlocs old pos (skipn pos (grows go)) (gdel go) ++ nlocs n1 0 (grows g1) [] ++ nlocs n2 0 (grows g2) [] ++ A) ->
  exists gs' t' g1' g2', move_rows P t old n1 n2 n (Z.of_nat pos) (Z.of_nat len) split bmax = Ok t' /\
    Forall2 noderep gs' (nodes t') /\ chain t' = chain t /\ length gs' = length gs /\
    (forall i, i <> n1 -> i <> n2 -> nth_error gs' i = nth_error gs i) /\
    nth_error gs' n1 = Some g1' /\ nth_error gs' n2 = Some g2' /\
    gdel g1' = [] /\ gdel g2' = [] /\ glo g1' = lo1 /\ ghi g1' = hi1 /\ glo g2' = lo2 /\ ghi g2' = hi2 /\
    ixok gs' (index t') (nlocs n1 0 (grows g1') [] ++ nlocs n2 0 (grows g2') [] ++ A) /\
    Permutation (map snd (nlocs n1 0 (grows g1') [] ++ nlocs n2 0 (grows g2') []))
                (map snd (nlocs old pos (skipn pos (grows go)) (gdel go) ++ nlocs n1 0 (grows g1) [] ++ nlocs n2 0 (grows g2) [])) /\
    (length (grows g1') <= length (grows g1) + ones pos (skipn pos (grows go)))%nat /\
    (length (grows g2') <= length (grows g2) + twos pos (skipn pos (grows go)))%nat.
Proof.
  induction n as [|n IH]; intros pos gs t A g1 g2 Hn F Eo E1 E2 Dl1 Dl2 L1 H1 L2 H2 HU HL HX; cbn [move_rows].
  - rewrite skipn_all2 in * by (unfold len in Hn; lia). cbn [nlocs app ones twos] in *.
    exists gs, t, g1, g2. splits; auto; lia.
  - assert (Hpos : (pos < len)%nat) by lia. unfold len in Hpos.
    destruct (nth_error (grows go) pos) as [tp|] eqn:Et; [|apply nth_error_None in Et; lia].
    destruct (Forall2_nth F Eo) as (no & Eno & Hno).
    unfold node_at at 1. rewrite Eno. cbn [of_opt bind].
    rewrite (n_del Hno), existsb_del.
    rewrite (@skipn_cons _ _ _ _ Et) in *. cbn [nlocs ones twos] in *.
    replace (Z.of_nat pos + 1) with (Z.of_nat (S pos)) by lia.
    destruct (existsb (Nat.eqb pos) (gdel go)) eqn:Ed; cbn [app] in *.
    + cbn [bind].
      destruct (IH (S pos) gs t A g1 g2) as (gs' & t' & g1' & g2' & E & X); auto; try lia.
      { intros i. specialize (HU i). rewrite (@firstn_snoc _ _ _ _ Et), column_app, used_app.
        assert (0 <= attr_bytes (nth i tp (AInt 0))) by (destruct (nth i tp (AInt 0)); cbn; lia). lia. }
      exists gs', t', g1', g2'. split; [exact E|]. destruct X as (X1 & X2 & X3 & X4 & X5 & X6 & X7 & X8 & X9 & X10 & X11 & X12 & X13 & X14 & X15 & X16).
      splits; auto; destruct (goes1 pos tp); lia.
    + rewrite (row_offsets_spec (n_b Hno) (lay HP)) by exact Hpos. cbn [bind].
      destruct (key_read Hno Et) as (kcol & -> & Hk). cbn [bind]. rewrite Hk. cbn [bind].
      rewrite (create_tuple_spec (n_b Hno) (lay HP) Et). cbn [bind].
      rewrite (xtr_ok HP tp). cbn [bind].
      assert (Ht : trow P dv tp).
      { pose proof (n_rows Hno) as Hr. rewrite Forall_forall in Hr. apply (Hr tp). eapply nth_error_In; eauto. }
      set (t1 := Table (nodes t) (chain t) (ix_erase (index t) (keyz P tp))).
      set (tgt := if goes1 pos tp then n1 else n2).
      assert (MV : (if split =? bmax then insert_tuple P t1 (keyz P tp) tp (if Z.of_nat pos <? Z.of_nat len / 2 then n1 else n2)
                    else insert_tuple P t1 (keyz P tp) tp (if xv tp <=? split then n1 else n2))
                   = insert_tuple P t1 (keyz P tp) tp tgt).
      { unfold tgt, goes1. destruct (split =? bmax); reflexivity. }
      rewrite MV. clear MV.
      pose proof (ixok_erase HX) as HX1. unfold ekey in HX1. cbn [snd] in HX1.
      assert (NK : ~ In (keyz P tp) (map (ekey P) (nlocs old (S pos) (skipn (S pos) (grows go)) (gdel go) ++ nlocs n1 0 (grows g1) [] ++ nlocs n2 0 (grows g2) [] ++ A))).
      { destruct HX as (_ & N & _). cbn [map] in N. inversion N; subst. assumption. }
      pose proof (r_fits (n_b Hno)) as Hfo.
      assert (HF : forall gx, (forall i, used (column i (grows gx)) <= used (column i (firstn pos (grows go)))) ->
                fits cs pages (grows gx ++ [tp])).
      { intros gx HUx. apply (@fits_less _ (grows go)); [|exact Hfo]. intros i. 
        pose proof (@used_cols_firstn (grows go) (S pos) i) as U. rewrite (@firstn_snoc _ _ _ _ Et) in U.
        rewrite column_app, used_app in U |- *. specialize (HUx i). lia. }
      pose proof (Hch Et) as Hr. 
      assert (U1 : forall i, used (column i (grows g1)) <= used (column i (firstn pos (grows go)))).
      { intros i. specialize (HU i). pose proof (@used_nonneg (column i (grows g2))). lia. }
      assert (U2 : forall i, used (column i (grows g2)) <= used (column i (firstn pos (grows go)))).
      { intros i. specialize (HU i). pose proof (@used_nonneg (column i (grows g1))). lia. }
      destruct (goes1 pos tp) eqn:Eg; unfold tgt; clear tgt.
      * destruct (@insert_tuple_spec P dv HP gs t1 n1 g1 (keyz P tp) tp) as (t2 & gs2 & Ei & Es & F2 & Ec2 & Ex2); auto; [lia|].
        rewrite Ei. cbn [bind]. cbn [index t1] in Ex2.
        pose proof (ixok_insert HX1 E1 Es NK) as HX2. rewrite <- Ex2 in HX2.
        assert (NS : forall i, i <> n1 -> nth_error gs2 i = nth_error gs i).
        { intros i Ni. rewrite (lset_nth i Es). destruct (Nat.eqb_spec i n1); [congruence|reflexivity]. }
        assert (E1' : nth_error gs2 n1 = Some (addrow g1 tp)) by (rewrite (lset_nth n1 Es), Nat.eqb_refl; reflexivity).
        destruct (IH (S pos) gs2 t2 A (addrow g1 tp) g2) as (gs' & t' & g1' & g2' & E & X); auto; try lia.
        { rewrite NS; auto. }
        { rewrite NS; auto. }
        { intros i. specialize (HU i). cbn [grows addrow]. rewrite (@firstn_snoc _ _ _ _ Et), !column_app, !used_app. lia. }
        { cbn [grows addrow]. rewrite app_length. cbn [length]. lia. }
        { eapply ixok_perm; [|exact HX2]. cbn [grows addrow]. rewrite nlocs_app by reflexivity. cbn [Nat.add].
          rewrite <- !app_assoc. cbn [app].
          eapply Permutation_trans; [apply Permutation_cons_app with (l1 := nlocs old (S pos) (skipn (S pos) (grows go)) (gdel go) ++ nlocs n1 0 (grows g1) []) (l2 := nlocs n2 0 (grows g2) [] ++ A)|].
          - rewrite <- !app_assoc. apply Permutation_refl.
          - rewrite <- !app_assoc. cbn [app]. apply Permutation_refl. }
        exists gs', t', g1', g2'. split; [exact E|]. destruct X as (X1 & X2 & X3 & X4 & X5 & X6 & X7 & X8 & X9 & X10 & X11 & X12 & X13 & X14 & X15 & X16).
        splits; auto.
        -- rewrite X2. cbn in Ec2. exact Ec2.
        -- rewrite X3. eapply lset_length; eauto.
        -- intros i N1 N2. rewrite X4 by assumption. now apply NS.
        -- eapply Permutation_trans; [exact X14|]. cbn [grows addrow]. rewrite nlocs_app by reflexivity. cbn [Nat.add].
           cbn [map snd]. rewrite !map_app. cbn [map snd]. apply perm_mid.
        -- cbn [grows addrow] in X15. rewrite app_length in X15. cbn [length] in X15. lia.
      * destruct (@insert_tuple_spec P dv HP gs t1 n2 g2 (keyz P tp) tp) as (t2 & gs2 & Ei & Es & F2 & Ec2 & Ex2); auto; [lia|].
        rewrite Ei. cbn [bind]. cbn [index t1] in Ex2.
        pose proof (ixok_insert HX1 E2 Es NK) as HX2. rewrite <- Ex2 in HX2.
        assert (NS : forall i, i <> n2 -> nth_error gs2 i = nth_error gs i).
        { intros i Ni. rewrite (lset_nth i Es). destruct (Nat.eqb_spec i n2); [congruence|reflexivity]. }
        assert (E2' : nth_error gs2 n2 = Some (addrow g2 tp)) by (rewrite (lset_nth n2 Es), Nat.eqb_refl; reflexivity).
        destruct (IH (S pos) gs2 t2 A g1 (addrow g2 tp)) as (gs' & t' & g1' & g2' & E & X); auto; try lia.
        { rewrite NS; auto. }
        { rewrite NS; auto. }
        { intros i. specialize (HU i). cbn [grows addrow]. rewrite (@firstn_snoc _ _ _ _ Et), !column_app, !used_app. lia. }
        { cbn [grows addrow]. rewrite app_length. cbn [length]. lia. }
        { eapply ixok_perm; [|exact HX2]. cbn [grows addrow]. rewrite (@nlocs_app n2 (grows g2)) by reflexivity. cbn [Nat.add].
          rewrite <- !app_assoc. cbn [app].
          eapply Permutation_trans; [apply Permutation_cons_app with (l1 := nlocs old (S pos) (skipn (S pos) (grows go)) (gdel go) ++ nlocs n1 0 (grows g1) [] ++ nlocs n2 0 (grows g2) []) (l2 := A)|].
          - rewrite <- !app_assoc. apply Permutation_refl.
          - rewrite <- !app_assoc. cbn [app]. apply Permutation_refl. }
        exists gs', t', g1', g2'. split; [exact E|]. destruct X as (X1 & X2 & X3 & X4 & X5 & X6 & X7 & X8 & X9 & X10 & X11 & X12 & X13 & X14 & X15 & X16).
        splits; auto.
        -- rewrite X2. cbn in Ec2. exact Ec2.
        -- rewrite X3. eapply lset_length; eauto.
        -- intros i N1 N2. rewrite X4 by assumption. now apply NS.
        -- eapply Permutation_trans; [exact X14|]. cbn [grows addrow]. rewrite (@nlocs_app n2 (grows g2)) by reflexivity. cbn [Nat.add].
           cbn [map snd]. rewrite !map_app. cbn [map snd].
           rewrite !app_assoc. symmetry. apply Permutation_cons_append.
        -- cbn [grows addrow] in X16. rewrite app_length in X16. cbn [length] in X16. lia.
Qed.
End Move.

(** ** The average *)
Lemma sum_bounds (l : list Z) lo hi : Forall (fun x => lo <= x <= hi) l ->
  lo * Z.of_nat (length l) <= zsum l <= hi * Z.of_nat (length l).
Proof.
  induction 1 as [|x l H _ IH]; [cbn; lia|]. rewrite zsum_cons. cbn [length]. lia.
Qed.
Lemma sum_top (l : list Z) hi : Forall (fun x => x <= hi) l -> hi * Z.of_nat (length l) <= zsum l -> Forall (fun x => x = hi) l.
Proof.
  induction 1 as [|x l H F IH]; [constructor|]. rewrite zsum_cons. cbn [length]. intros E.
  assert (U : zsum l <= hi * Z.of_nat (length l)).
  { clear - F. induction F as [|y l H _ IH]; [cbn; lia|]. rewrite zsum_cons. cbn [length]. lia. }
  constructor; [lia|]. apply IH. lia.
Qed.
Lemma sum_some (l : list Z) s : Forall (fun x => s < x) l -> l <> [] -> (s + 1) * Z.of_nat (length l) <= zsum l.
Proof.
  intros F _. induction F as [|y l H _ IH]; [cbn; lia|]. rewrite zsum_cons. cbn [length]. lia.
Qed.

Lemma avg_spec (l : list Z) lo hi s : l <> [] -> Forall (fun x => lo <= x <= hi) l -> s = zsum l / Z.of_nat (length l) ->
  lo <= s <= hi /\ (s = hi -> Forall (fun x => x = hi) l) /\ ~ Forall (fun x => s < x) l.
Proof.
  intros N F E. pose proof (sum_bounds F) as B.
  assert (Hn : 0 < Z.of_nat (length l)) by (destruct l; [congruence|cbn [length]; lia]).
  assert (D : s * Z.of_nat (length l) <= zsum l < (s + 1) * Z.of_nat (length l)).
  { subst s. pose proof (Z.div_mod (zsum l) (Z.of_nat (length l)) ltac:(lia)).
    pose proof (Z.mod_pos_bound (zsum l) (Z.of_nat (length l)) Hn). nia. }
  clear E. splits; [nia|nia| |].
  - intros ->. apply sum_top; [|nia]. eapply Forall_impl; [|exact F]. intros x Hx. cbn in Hx. lia.
  - intros C. apply sum_some in C; [|exact N]. lia.
Qed.

(** ** Ranges *)
Lemma tiles_cons lo hi a b c d r : tiles lo hi ((a, b) :: (c, d) :: r) <->
  a = lo /\ a <= b /\ (c = b + 1 \/ (c = b /\ d = b)) /\ tiles c hi ((c, d) :: r).
Proof. cbn [tiles]. tauto. Qed.

Lemma tiles_head lo hi a b r : tiles lo hi ((a, b) :: r) -> a = lo /\ a <= b.
Proof. cbn [tiles]. tauto. Qed.

Lemma tiles_split hi a b r2 x1 x2 : (exists s, a <= s < b /\ x1 = (a, s) /\ x2 = (s + 1, b)) \/ (x1 = (a, b) /\ x2 = (b, b)) ->
  forall r1 lo, tiles lo hi (r1 ++ (a, b) :: r2) -> tiles lo hi (r1 ++ x1 :: x2 :: r2).
Proof.
  intros X.
  assert (BASE : forall lo, tiles lo hi ((a, b) :: r2) -> tiles lo hi (x1 :: x2 :: r2)).
  { intros lo H. pose proof (tiles_head H) as (-> & Hab).
    destruct X as [(s & Hs & -> & ->)|(-> & ->)]; apply tiles_cons; splits; try lia; try reflexivity; try (left; lia); try (right; split; reflexivity).
    - destruct r2 as [|(c, d) r2]; [cbn [tiles] in *; lia|]. apply tiles_cons. apply tiles_cons in H. destruct H as (K1 & K2 & K3 & K4). splits; [lia|lia|exact K3|exact K4].
    - destruct r2 as [|(c, d) r2]; [cbn [tiles] in *; lia|]. apply tiles_cons. apply tiles_cons in H. destruct H as (K1 & K2 & K3 & K4). splits; [lia|lia|exact K3|exact K4]. }
  induction r1 as [|(a0, b0) r1 IH]; intros lo H; [now apply BASE|]. cbn [app] in *.
  destruct r1 as [|(a1, b1) r1]; cbn [app] in *.
  - apply tiles_cons in H. destruct H as (H1 & H2 & H3 & H4). specialize (IH _ H4).
    destruct X as [(s & Hs & -> & ->)|(-> & ->)]; apply tiles_cons; splits; auto; lia.
  - apply tiles_cons in H. destruct H as (H1 & H2 & H3 & H4). apply tiles_cons. splits; auto.
Qed.

Lemma replace_in_spec c1 old c2 news : ~ In old c1 -> replace_in (c1 ++ old :: c2) old news = c1 ++ news ++ c2.
Proof.
  induction c1 as [|i c1 IH]; cbn [app replace_in]; intros H.
  - now rewrite Nat.eqb_refl.
  - destruct (Nat.eqb_spec i old) as [->|N]; [exfalso; apply H; now left|]. f_equal. apply IH. intros I. apply H. now right.
Qed.

Lemma all_locs_same gs gs' c : (forall i, In i c -> nth_error gs' i = nth_error gs i) -> all_locs gs' c = all_locs gs c.
Proof.
  unfold all_locs. induction c as [|i c IH]; intros H; cbn [flat_map]; [reflexivity|].
  rewrite IH by (intros; apply H; now right). f_equal. unfold locs_at. now rewrite H by (now left).
Qed.
Lemma all_locs_app gs c c' : all_locs gs (c ++ c') = all_locs gs c ++ all_locs gs c'.
Proof. apply flat_map_app. Qed.

Lemma noderep_new lo hi : 0 <= lo <= hi -> hi <= top_value -> exists b, init_block cs lo hi = Ok b /\
  noderep (G lo hi [] []) (Node b [] 0).
Proof.
  intros H1 H2. destruct (@init_block_spec (dlt P) dv cs lo hi (p_len HP)) as (b & E & R).
  exists b. split; [exact E|]. split; cbn [glo ghi grows gdel blk del bsum]; auto. split; constructor.
Qed.

Lemma ones_half go s j rows : Z.of_nat (ones go s s j rows) <= Z.max 0 (Z.of_nat (length (grows go)) / 2 - Z.of_nat j).
Proof.
  revert j; induction rows as [|t r IH]; intros j; cbn [ones]; [lia|]. specialize (IH (S j)).
  unfold goes1 at 1. rewrite Z.eqb_refl. destruct (Z.ltb_spec (Z.of_nat j) (Z.of_nat (length (grows go)) / 2)); lia.
Qed.
Lemma twos_half go s rows : forall j, (j + length rows = length (grows go))%nat ->
  (twos go s s j rows <= length rows - (length (grows go) / 2 - j))%nat.
Proof.
  assert (D : Z.of_nat (length (grows go) / 2) = Z.of_nat (length (grows go)) / 2) by (rewrite Nat2Z.inj_div; reflexivity).
  induction rows as [|t r IH]; intros j Hj; cbn [twos length] in *; [lia|]. specialize (IH (S j)).
  unfold goes1 at 1. rewrite Z.eqb_refl. destruct (Z.ltb_spec (Z.of_nat j) (Z.of_nat (length (grows go)) / 2)); lia.
Qed.
Lemma ones_all go s bmax j rows : (ones go s bmax j rows <= length rows)%nat.
Proof.
  revert j; induction rows as [|t r IH]; intros j; cbn [ones length]; [lia|]. specialize (IH (S j)). destruct (goes1 go s bmax j t); lia.
Qed.
Lemma twos_less go s bmax j rows : s <> bmax -> ~ Forall (fun x => s < x) (map xv rows) -> (twos go s bmax j rows < length rows)%nat.
Proof.
  intros Ns. assert (LE : forall j rows, (twos go s bmax j rows <= length rows)%nat).
  { clear. intros j rows. revert j; induction rows as [|t r IH]; intros j; cbn [twos length]; [lia|]. specialize (IH (S j)). destruct (goes1 go s bmax j t); lia. }
  revert j; induction rows as [|t r IH]; intros j H; cbn [twos length map] in *; [exfalso; apply H; constructor|].
  specialize (LE (S j) r). unfold goes1. destruct (Z.eqb_spec s bmax); [congruence|].
  destruct (Z.leb_spec (xv t) s) as [Hle|Hlt]; [lia|]. specialize (IH (S j)).
  assert (twos go s bmax (S j) r < length r)%nat; [|lia]. apply IH. intros C. apply H. constructor; auto.
Qed.

(** splitBlock: the new blocks, their ranges and how many rows they have at most. *)
Lemma split_block_spec gs t m old go : tinv gs t m -> In old (chain t) -> nth_error gs old = Some go -> grows go <> [] ->
  exists gs' t' g1 g2 c1 c2 s, split_block P t old = Ok t' /\ tinv gs' t' m /\
    chain t = c1 ++ old :: c2 /\ chain t' = c1 ++ [length gs; S (length gs)] ++ c2 /\
    (forall i, (i < length gs)%nat -> nth_error gs' i = nth_error gs i) /\
    nth_error gs' (length gs) = Some g1 /\ nth_error gs' (S (length gs)) = Some g2 /\
    ((glo go <= s < ghi go /\ glo g1 = glo go /\ ghi g1 = s /\ glo g2 = s + 1 /\ ghi g2 = ghi go /\
      (length (grows g1) <= length (grows go))%nat /\ (length (grows g2) < length (grows go))%nat /\
      s = zsum (map xv (grows go)) / Z.of_nat (length (grows go)))
     \/ (glo g1 = glo go /\ ghi g1 = ghi go /\ glo g2 = ghi go /\ ghi g2 = ghi go /\
         (length (grows g1) <= length (grows go) / 2)%nat /\ (length (grows g2) <= length (grows go) - length (grows go) / 2)%nat /\
         Forall (fun x => x = ghi go) (map xv (grows go)))).
Proof.
  intros [IN (IC1 & IC2) IT IX IM] Io Eo Nr.
  destruct (Forall2_nth IN Eo) as (no & Eno & Hno). pose proof (few_rows HP Hno) as FR.
  pose proof (n_rng Hno) as (R1 & R2). pose proof (top_range HP) as TR.
  assert (Lo : (old < length gs)%nat) by (apply nth_error_Some; congruence).
  assert (Ln : length gs = length (nodes t)) by (eapply Forall2_length; eauto).
  assert (Lp : 0 < Z.of_nat (length (grows go))) by (destruct (grows go); [congruence|cbn [length]; lia]).
  set (s := zsum (map xv (grows go)) / Z.of_nat (length (grows go))).
  destruct (@avg_spec (map xv (grows go)) (glo go) (ghi go) s) as (A1 & A2 & A3).
  { destruct (grows go); [congruence|discriminate]. }
  { apply Forall_map. eapply Forall_impl; [|exact (n_rows Hno)]. intros x (_ & H). exact H. }
  { unfold s. now rewrite map_length. }
  unfold split_block, node_at. rewrite Eno. cbn [of_opt bind]. rewrite (range_of_ok HP Hno). cbn [bind].
  rewrite (u32_reg (r_cnt (n_b Hno))) by lia. cbn [bind].
  destruct (Z.eqb_spec (Z.of_nat (length (grows go))) 0) as [C|_]; [lia|].
  rewrite (n_sum Hno). fold s. replace (w32 s) with s by (unfold w32; symmetry; apply Z.mod_small; lia).
  destruct (@noderep_new (glo go) s) as (b1 & E1 & N1); [lia|lia|]. rewrite E1. cbn [bind].
  set (lo2 := if s =? ghi go then ghi go else s + 1).
  assert (Hlo2 : 0 <= lo2 <= ghi go) by (unfold lo2; destruct (Z.eqb_spec s (ghi go)); lia).
  destruct (@noderep_new lo2 (ghi go)) as (b2 & E2 & N2); [lia|lia|].
  assert (EB : (if s =? ghi go then init_block cs (ghi go) (ghi go) else init_block cs (w32 (s + 1)) (ghi go)) = Ok b2).
  { rewrite <- E2. unfold lo2. destruct (Z.eqb_spec s (ghi go)); [reflexivity|].
    replace (w32 (s + 1)) with (s + 1) by (unfold w32; symmetry; apply Z.mod_small; lia). reflexivity. }
  rewrite EB. cbn [bind]. clear EB.
  assert (EC : u16 (blk no) count_pos = Ok (Z.of_nat (length (grows go)))).
  { apply u16_reg; [|lia]. apply reg_prefix; [exact (r_cnt (n_b Hno))|lia]. }
  rewrite EC. cbn [bind]. rewrite Nat2Z.id.
  destruct (in_split _ _ Io) as (c1 & c2 & Ec).
  set (g1 := G (glo go) s [] []) in *. set (g2 := G lo2 (ghi go) [] []) in *.
  set (t1 := Table (nodes t ++ [Node b1 [] 0; Node b2 [] 0]) (chain t) (index t)).
  set (gs1 := gs ++ [g1; g2]).
  assert (Hold : nth_error gs1 old = Some go) by (unfold gs1; rewrite nth_error_app1; auto).
  assert (Hn1 : nth_error gs1 (length gs) = Some g1) by (unfold gs1; rewrite nth_error_app2, Nat.sub_diag by lia; reflexivity).
  assert (Hn2 : nth_error gs1 (S (length gs)) = Some g2).
  { unfold gs1. rewrite nth_error_app2 by lia. replace (S (length gs) - length gs)%nat with 1%nat by lia. reflexivity. }
  assert (Hsame : forall i, (i < length gs)%nat -> nth_error gs1 i = nth_error gs i) by (intros i Hi; unfold gs1; apply nth_error_app1; exact Hi).
  set (A := all_locs gs c1 ++ all_locs gs c2).
  assert (LOld : locs_at gs old = nlocs old 0 (grows go) (gdel go)) by (unfold locs_at; now rewrite Eo).
  assert (PERM : Permutation (all_locs gs (chain t)) (nlocs old 0 (grows go) (gdel go) ++ A)).
  { rewrite Ec, all_locs_app. unfold A. cbn [all_locs flat_map]. rewrite LOld.
    rewrite Permutation_app_comm, <- app_assoc. apply Permutation_app_head. apply Permutation_app_comm. }
  assert (IX1 : ixok gs1 (index t1) (nlocs old 0 (skipn 0 (grows go)) (gdel go) ++ nlocs (length gs) 0 (grows g1) [] ++ nlocs (S (length gs)) 0 (grows g2) [] ++ A)).
  { cbn [skipn g1 g2 grows nlocs app index t1]. apply (ixok_perm PERM) in IX. destruct IX as (F & N & H). split; [|split; assumption].
    eapply Forall_impl; [|exact F]. intros [[i j] tp] (g & Eg & X). exists g. split; [|exact X]. rewrite Hsame; [exact Eg|].
    apply nth_error_Some. congruence. }
  destruct (@move_rows_spec old (length gs) (S (length gs)) go s (ghi go) (glo go) s lo2 (ghi go)) with
     (n := length (grows go)) (pos := 0%nat) (gs := gs1) (t := t1) (A := A) (g1 := g1) (g2 := g2)
    as (gs' & t' & g1' & g2' & EM & F' & C' & L' & S' & Q1 & Q2 & D1 & D2 & B1 & B2 & B3 & B4 & IX' & PM & W1 & W2); auto; try lia.
  { intros j tp Ej. assert (It : In tp (grows go)) by (eapply nth_error_In; eauto).
    pose proof (n_rows Hno) as Hr. rewrite Forall_forall in Hr. destruct (Hr _ It) as (_ & Hx).
    unfold goes1, lo2. destruct (Z.eqb_spec s (ghi go)) as [Es|Es].
    - assert (Ex : xv tp = ghi go).
      { specialize (A2 Es). rewrite Forall_forall in A2. apply A2. now apply in_map. }
      destruct (Z.of_nat j <? Z.of_nat (length (grows go)) / 2); lia.
    - destruct (Z.leb_spec (xv tp) s); lia. }
  { cbn [nodes t1]. unfold gs1. apply Forall2_app; [exact IN|]. constructor; [exact N1|]. constructor; [exact N2|constructor]. }
  { intros i. reflexivity. }
  rewrite <- Ln. change (Z.of_nat 0) with 0 in EM. cbn [skipn] in *. fold t1. rewrite EM. cbn [bind].
  assert (Nc1 : ~ In old c1 /\ ~ In old c2).
  { rewrite Ec in IC1. apply NoDup_remove_2 in IC1. rewrite in_app_iff in IC1. tauto. }
  assert (Bd : forall i, In i c1 \/ In i c2 -> (i < length gs)%nat).
  { rewrite Forall_forall in IC2. intros i Hi. apply IC2. rewrite Ec, in_app_iff. cbn [In]. tauto. }
  assert (SAME : forall i, (i < length gs)%nat -> nth_error gs' i = nth_error gs i).
  { intros i Hi. rewrite S' by lia. now apply Hsame. }
  assert (LEN' : length gs' = S (S (length gs))).
  { rewrite L'. unfold gs1. rewrite app_length. cbn [length]. lia. }
  assert (NL : all_locs gs' (c1 ++ [length gs; S (length gs)] ++ c2)
             = all_locs gs c1 ++ (nlocs (length gs) 0 (grows g1') [] ++ nlocs (S (length gs)) 0 (grows g2') []) ++ all_locs gs c2).
  { rewrite !all_locs_app. rewrite (@all_locs_same gs gs' c1) by (intros i Hi; apply SAME; auto).
    rewrite (@all_locs_same gs gs' c2) by (intros i Hi; apply SAME; auto). f_equal. f_equal.
    cbn [all_locs flat_map]. unfold locs_at. rewrite Q1, Q2, D1, D2, app_nil_r. reflexivity. }
  exists gs'. eexists. exists g1', g2', c1, c2, s. split; [reflexivity|]. cbn [chain nodes index]. rewrite C'. cbn [chain t1].
  assert (RI : replace_in (chain t) old [length gs; S (length gs)] = c1 ++ [length gs; S (length gs)] ++ c2) by (rewrite Ec; apply replace_in_spec; tauto).
  rewrite RI.
  splits; auto.
  - split; cbn [chain nodes index].
    + exact F'.
    + split.
      * rewrite Ec in IC1. apply NoDup_remove in IC1. destruct IC1 as (ND & _).
        apply Permutation_NoDup with (l := length gs :: S (length gs) :: c1 ++ c2).
        -- eapply Permutation_trans; [apply perm_skip, Permutation_middle|]. apply Permutation_middle.
        -- constructor; [|constructor; [|exact ND]].
           ++ intros [X|X]; [lia|]. rewrite in_app_iff in X. specialize (Bd (length gs)). apply Bd in X. lia.
           ++ intros X. rewrite in_app_iff in X. specialize (Bd (S (length gs))). apply Bd in X. lia.
      * rewrite LEN'. apply Forall_forall. intros i Hi. rewrite !in_app_iff in Hi. cbn [In] in Hi.
        destruct Hi as [Hi|[[<-|[<-|[]]]|Hi]]; try lia; specialize (Bd i); intuition lia.
    + rewrite Ec in IT. rewrite !map_app in *. cbn [map app] in *.
      assert (RS : forall c, (forall i, In i c -> (i < length gs)%nat) -> map (rng gs') c = map (rng gs) c).
      { intros c Hc. apply map_ext_in. intros i Hi. unfold rng. now rewrite SAME by auto. }
      rewrite (RS c1), (RS c2) by auto.
      assert (Ro : rng gs old = (glo go, ghi go)) by (unfold rng; now rewrite Eo). rewrite Ro in IT.
      eapply tiles_split; [|exact IT]. unfold rng. rewrite Q1, Q2, B1, B2, B3, B4. unfold lo2.
      destruct (Z.eqb_spec s (ghi go)) as [Es|Es]; [right; rewrite Es; auto|left; exists s; splits; auto; lia].
    + rewrite NL. eapply ixok_perm; [|exact IX']. unfold A. rewrite (app_assoc (nlocs (length gs) 0 (grows g1') [])). apply Permutation_app_swap_app.
    + rewrite NL. eapply Permutation_trans; [exact IM|].
      eapply Permutation_trans; [apply Permutation_map; exact PERM|].
      rewrite !map_app. unfold A. rewrite map_app.
      assert (X : Permutation (map (fun e => (ekey P e, snd e)) (nlocs old 0 (grows go) (gdel go)))
                  (map (fun e => (ekey P e, snd e)) (nlocs (length gs) 0 (grows g1') []) ++
                   map (fun e => (ekey P e, snd e)) (nlocs (S (length gs)) 0 (grows g2') []))).
      { rewrite <- map_app.
        assert (MM : forall l : list entry, map (fun e => (ekey P e, snd e)) l = map (fun tp => (keyz P tp, tp)) (map snd l)).
        { intros l. rewrite map_map. apply map_ext. intros [[i j] tp]. reflexivity. }
        rewrite !MM. apply Permutation_map.
        symmetry. cbn [g1 g2 grows nlocs app] in PM. rewrite app_nil_r in PM. exact PM. }
      rewrite X. rewrite app_assoc. rewrite (Permutation_app_comm _ (map _ (all_locs gs c1))).
      rewrite <- !app_assoc. apply Permutation_refl.
  - cbn [g1 g2 grows length Nat.add] in W1, W2.
    destruct (Z.eq_dec s (ghi go)) as [Es|Es].
    + right. unfold lo2 in B3. rewrite Es, Z.eqb_refl in B3. splits; auto; [congruence| |].
      2: { rewrite Es in W2. pose proof (@twos_half go (ghi go) (grows go) 0 eq_refl). lia. }
      rewrite Es in W1. pose proof (@ones_half go (ghi go) 0 (grows go)) as OH. cbn [Z.of_nat] in OH. rewrite Z.sub_0_r in OH.
      assert (Z.of_nat (length (grows go) / 2) = Z.of_nat (length (grows go)) / 2) by (rewrite Nat2Z.inj_div; reflexivity). lia.
    + left. unfold lo2 in B3. destruct (Z.eqb_spec s (ghi go)); [congruence|]. splits; auto; try lia.
      * pose proof (@ones_all go s (ghi go) 0 (grows go)). lia.
      * pose proof (@twos_less go s (ghi go) 0 (grows go) Es A3). lia.
Qed.
End Split.
