(** Tables: deleteByKey, getByKey, count, histories. *)
From Coq Require Import Permutation.
From Verif Require Import Base SerModel SerProofs BdccModel BdccSpec BdccProofs BlockModel PTableModel BlockSpec
  LayoutProofs BlockBytes ColProofs InsColProofs BlockProofs InitProofs TableSpec TableProofs SplitProofs InsertProofs.
Open Scope Z_scope.

(** ** Fuel *)
Lemma insert_mono P k tp f f' t r : insert P f t k tp = r -> r <> NoFuel -> (f <= f')%nat -> insert P f' t k tp = r.
Proof.
  revert f' t r. induction f as [|f IH]; intros f' t r E N L; [cbn in E; congruence|].
  destruct f' as [|f']; [lia|]. cbn [insert] in *.
  destruct (xtr P tp); cbn [bind] in *; [|exact E|exact E].
  destruct (find_node t (chain t) a); cbn [bind] in *; [|exact E|exact E].
  destruct (find_insert P t tp a0) as [(i, full)| |]; cbn [bind] in *; [|exact E|exact E].
  destruct full; [|exact E]. destruct (split_block P t i); cbn [bind] in *; [|exact E|exact E].
  apply IH; auto. lia.
Qed.

Section Run.
Variables (P : params) (dv : Z -> Prop).
Hypothesis HP : params_ok P dv.
Notation cs := (cols P).
Notation pages := (pages_of (cols P)).
Notation top_value := (2 ^ Z.of_nat (num_bins (dims P)) - 1).
Notation noderep := (noderep P dv).
Notation tinv := (tinv P dv).
Notation ekey := (ekey P).

(** ** The map *)
Lemma assoc_in m k tp : NoDup (map fst m) -> In (k, tp) m -> assoc m k = Some tp.
Proof.
  induction m as [|[a x] m IH]; intros N H; [contradiction|]. cbn [assoc map fst] in *. inversion N as [|? ? Na Nm]; subst.
  destruct H as [H|H].
  - injection H as -> ->. now rewrite Z.eqb_refl.
  - destruct (Z.eqb_spec a k) as [->|]; [|now apply IH]. exfalso. apply Na. change k with (fst (k, tp)). now apply in_map.
Qed.
Lemma assoc_some m k tp : assoc m k = Some tp -> In (k, tp) m.
Proof.
  induction m as [|[a x] m IH]; cbn [assoc]; [discriminate|]. destruct (Z.eqb_spec a k) as [->|]; [intros [= ->]; now left|]. right. auto.
Qed.
Lemma assoc_none m k : ~ In k (map fst m) -> assoc m k = None.
Proof. intros H. destruct (assoc m k) as [x|] eqn:E; [|reflexivity]. exfalso. apply H. apply assoc_some in E. change k with (fst (k, x)). now apply in_map. Qed.

Lemma tinv_keys gs t m : tinv gs t m -> Permutation (map fst m) (map ekey (all_locs gs (chain t))).
Proof.
  intros I. eapply Permutation_trans; [apply Permutation_map; exact (i_map I)|]. rewrite map_map. cbn [fst]. reflexivity.
Qed.
Lemma tinv_nodup gs t m : tinv gs t m -> NoDup (map fst m).
Proof. intros I. eapply Permutation_NoDup; [symmetry; apply (tinv_keys I)|]. apply (i_ix I). Qed.
Lemma tinv_entry gs t m k tp : tinv gs t m -> In (k, tp) m -> exists i j g n, In i (chain t) /\ In (i, j, tp) (all_locs gs (chain t)) /\
  keyz P tp = k /\ nth_error gs i = Some g /\ node_at t i = Ok n /\ noderep g n /\ nth_error (grows g) j = Some tp /\ ~ In j (gdel g) /\
  ix_lookup (index t) k = Some (PTuple i (offs P (grows g) j)).
Proof.
  intros I H. apply (Permutation_in _ (i_map I)) in H. apply in_map_iff in H. destruct H as (((i, j) & tp') & E & H).
  cbn [snd] in E. unfold TableProofs.ekey in E. cbn [snd] in E. injection E as Ek ->.
  destruct (i_ix I) as (F & _). rewrite Forall_forall in F. destruct (F _ H) as (g & Eg & Ej & El).
  destruct (Forall2_nth (i_nodes I) Eg) as (n & En & Hn). rewrite Ek in El.
  assert (H' := H). unfold all_locs in H'. apply in_flat_map in H'. destruct H' as (i' & Hi' & H').
  unfold locs_at in H'. destruct (nth_error gs i') as [g'|] eqn:Eg'; [|contradiction].
  apply nlocs_in in H'. destruct H' as (<- & _ & _ & Nd). rewrite Eg in Eg'. injection Eg' as <-.
  exists i, j, g, n. unfold node_at. rewrite En. splits; auto.
Qed.
Lemma tinv_lookup gs t m k p : tinv gs t m -> ix_lookup (index t) k = Some p -> exists tp, In (k, tp) m.
Proof.
  intros I E. destruct (i_ix I) as (_ & _ & H). specialize (H _ _ E).
  apply (Permutation_in _ (Permutation_sym (tinv_keys I))) in H. apply in_map_iff in H. destruct H as ((a, x) & Ea & H). cbn in Ea. subst a. eauto.
Qed.

(** ** getByKey *)
Lemma get_spec gs t m k : tinv gs t m -> get_by_key P t k = Ok (assoc m k).
Proof.
  intros I. unfold get_by_key. destruct (ix_lookup (index t) k) as [p|] eqn:E.
  - destruct (tinv_lookup I E) as (tp & H). destruct (tinv_entry I H) as (i & j & g & n & Hi & _ & Ek & Eg & En & Hn & Ej & _ & El).
    rewrite E in El. injection El as ->. cbn [pnode poffs]. rewrite En. cbn [bind].
    unfold offs. rewrite (create_tuple_spec (n_b Hn) (lay HP) Ej). cbn [bind]. rewrite (assoc_in (tinv_nodup I) H). reflexivity.
  - destruct (assoc m k) as [tp|] eqn:A; [|reflexivity]. apply assoc_some in A.
    destruct (tinv_entry I A) as (i & j & g & n & _ & _ & _ & _ & _ & _ & _ & _ & El). congruence.
Qed.

(** ** count *)
Lemma nlocs_count i rows : forall dl j0, NoDup dl -> Forall (fun j => (j0 <= j < j0 + length rows)%nat) dl ->
  (length (nlocs i j0 rows dl) + length dl = length rows)%nat.
Proof.
  induction rows as [|r rows IH]; intros dl j0 N F.
  - destruct dl as [|d dl]; [reflexivity|]. pose proof (Forall_inv F) as X. cbn in X. lia.
  - cbn [nlocs]. rewrite app_length. destruct (existsb (Nat.eqb j0) dl) eqn:X.
    + apply existsb_exists in X. destruct X as (y & Iy & Ey). apply Nat.eqb_eq in Ey. subst y.
      destruct (in_split _ _ Iy) as (d1 & d2 & Ed). assert (N' := N). rewrite Ed in N'. apply NoDup_remove in N'. destruct N' as (N1 & N2).
      assert (SAME : forall rows j, (j0 < j)%nat -> nlocs i j rows dl = nlocs i j rows (d1 ++ d2)).
      { clear - Ed. induction rows as [|r rows IH]; intros j Hj; [reflexivity|]. cbn [nlocs]. rewrite IH by lia. f_equal.
        rewrite Ed, !existsb_app. cbn [existsb]. destruct (Nat.eqb_spec j j0); [lia|]. reflexivity. }
      rewrite SAME by lia. specialize (IH (d1 ++ d2) (S j0) N1).
      assert (length dl = S (length (d1 ++ d2))) by (rewrite Ed, !app_length; cbn; lia).
      cbn [length]. rewrite <- IH.
      { rewrite H. apply Nat.add_succ_r. } rewrite Forall_forall in *. intros x Hx.
      assert (In x dl) by (rewrite Ed; rewrite in_app_iff in *; cbn [In]; tauto). specialize (F x H0). cbn [length] in F.
      assert (x <> j0) by (intros ->; contradiction). lia.
    + specialize (IH dl (S j0) N). cbn [length]. assert (IH' : (length (nlocs i (S j0) rows dl) + length dl = length rows)%nat); [|cbn [length]; rewrite <- IH'; reflexivity].
      apply IH. rewrite Forall_forall in *. intros x Hx. specialize (F x Hx). cbn [length] in F.
      assert (x <> j0); [|lia]. intros ->. assert (existsb (Nat.eqb j0) dl = true); [|congruence].
      apply existsb_exists. exists j0. split; [exact Hx|apply Nat.eqb_refl].
Qed.

Lemma few (l : list Z) N : NoDup l -> Forall (fun z => 0 <= z < N) l -> Z.of_nat (length l) <= Z.max 0 N.
Proof.
  intros ND F. assert (X : (length l <= length (map Z.of_nat (seq 0 (Z.to_nat N))))%nat).
  { apply NoDup_incl_length; [exact ND|]. intros z Hz. rewrite Forall_forall in F. specialize (F z Hz).
    apply in_map_iff. exists (Z.to_nat z). split; [lia|]. apply in_seq. lia. }
  rewrite map_length, seq_length in X. lia.
Qed.

Lemma tinv_few gs t m : tinv gs t m -> Z.of_nat (length (all_locs gs (chain t))) <= 65536.
Proof.
  intros I. destruct (i_ix I) as (F & ND & _). rewrite <- (map_length ekey). eapply Z.le_trans; [apply (few (N := 65536) ND)|lia].
  apply Forall_map. rewrite Forall_forall in *. intros [[i j] tp] H. destruct (F _ H) as (g & Eg & Ej & _).
  destruct (Forall2_nth (i_nodes I) Eg) as (n & _ & Hn). pose proof (n_rows Hn) as R. rewrite Forall_forall in R.
  destruct (R tp (nth_error_In _ _ Ej)) as ((_ & _ & Hk & _) & _). exact Hk.
Qed.

Lemma count_from_spec gs t c : Forall2 noderep gs (nodes t) -> Forall (fun i => (i < length gs)%nat) c -> forall acc,
  0 <= acc -> acc + Z.of_nat (length (all_locs gs c)) <= 65536 ->
  count_from t c acc = Ok (acc + Z.of_nat (length (all_locs gs c))).
Proof.
  intros F. induction c as [|i c IH]; intros B acc Ha Hs; [cbn [count_from all_locs flat_map length]; f_equal; cbn; lia|].
  inversion B as [|? ? Bi Bc]; subst. destruct (at_node HP F Bi) as (g & n & Eg & En & Hn & _).
  pose proof (few_rows HP Hn) as FR.
  cbn [count_from]. rewrite En. cbn [bind]. rewrite (u32_reg (r_cnt (n_b Hn))) by lia. cbn [bind].
  rewrite (n_del Hn), map_length.
  assert (AL : all_locs gs (i :: c) = nlocs i 0 (grows g) (gdel g) ++ all_locs gs c) by (cbn [all_locs flat_map]; unfold locs_at at 1; now rewrite Eg).
  rewrite AL, app_length in *. destruct (n_dl Hn) as (D1 & D2).
  assert (NC : (length (nlocs i 0 (grows g) (gdel g)) + length (gdel g) = length (grows g))%nat).
  { apply nlocs_count; [exact D1|]. eapply Forall_impl; [|exact D2]. cbn. lia. }
  set (x := length (nlocs i 0 (grows g) (gdel g))) in *.
  replace (w64 (acc + Z.of_nat (length (grows g)) - Z.of_nat (length (gdel g)))) with (acc + Z.of_nat x).
  2: { unfold w64. rewrite Z.mod_small by lia. lia. }
  rewrite IH by (auto; lia). f_equal. lia.
Qed.

Lemma count_spec gs t m : tinv gs t m -> count t = Ok (Z.of_nat (length m)).
Proof.
  intros I. unfold count. pose proof (tinv_few I). destruct (i_chain I) as (_ & B).
  rewrite (count_from_spec (i_nodes I) B) by lia. f_equal.
  pose proof (Permutation_length (i_map I)) as L. rewrite map_length in L. lia.
Qed.

(** ** deleteByKey *)
Lemma nlocs_del i rows : forall j0 k dl tp, nth_error rows k = Some tp -> ~ In (j0 + k)%nat dl ->
  Permutation (nlocs i j0 rows dl) ((i, (j0 + k)%nat, tp) :: nlocs i j0 rows (dl ++ [(j0 + k)%nat])).
Proof.
  induction rows as [|r rows IH]; intros j0 k dl tp E N; [destruct k; discriminate|].
  destruct k as [|k]; cbn [nth_error nlocs] in *.
  - injection E as ->. rewrite Nat.add_0_r in *.
    replace (existsb (Nat.eqb j0) dl) with false.
    2: { symmetry. destruct (existsb (Nat.eqb j0) dl) eqn:X; [|reflexivity]. exfalso. apply N. apply existsb_exists in X.
         destruct X as (y & Iy & Ey). apply Nat.eqb_eq in Ey. now subst. }
    rewrite existsb_app. cbn [existsb]. rewrite Nat.eqb_refl, orb_true_r. cbn [app].
    apply perm_skip. clear. assert (H : forall rows j, (j0 < j)%nat -> nlocs i j rows dl = nlocs i j rows (dl ++ [j0])).
    { induction rows0 as [|r0 rows0 IH]; intros j Hj; [reflexivity|]. cbn [nlocs]. rewrite IH by lia. f_equal.
      rewrite existsb_app. cbn [existsb]. destruct (Nat.eqb_spec j j0); [lia|]. now rewrite !orb_false_r. }
    rewrite <- H by lia. reflexivity.
  - rewrite <- Nat.add_succ_comm in *. rewrite (IH (S j0) k dl tp E N).
    replace (existsb (Nat.eqb j0) (dl ++ [(S j0 + k)%nat])) with (existsb (Nat.eqb j0) dl).
    2: { rewrite existsb_app. cbn [existsb]. destruct (Nat.eqb_spec j0 (S j0 + k)); [lia|]. now rewrite !orb_false_r. }
    destruct (existsb (Nat.eqb j0) dl); cbn [app]; [reflexivity|apply perm_swap].
Qed.

Lemma delete_spec gs t m k : tinv gs t m -> hd_error cs <> Some CStr ->
  (assoc m k = None /\ delete_by_key P t k = Ok None) \/
  (exists gs' t', assoc m k <> None /\ delete_by_key P t k = Ok (Some t') /\ tinv gs' t' (filter (fun x => negb (fst x =? k)) m)).
Proof.
  intros I NS. unfold delete_by_key. destruct (ix_lookup (index t) k) as [p|] eqn:E.
  2: { left. split; [|reflexivity]. destruct (assoc m k) as [tp|] eqn:A; [|reflexivity]. apply assoc_some in A.
       destruct (tinv_entry I A) as (i & j & g & n & _ & _ & _ & _ & _ & _ & _ & _ & El). congruence. }
  right. destruct (tinv_lookup I E) as (tp & H). destruct (tinv_entry I H) as (i & j & g & n & Hi & Hloc & Ek & Eg & En & Hn & Ej & Nd & El).
  rewrite E in El. injection El as ->. cbn [pnode poffs]. rewrite En. cbn [bind].
  destruct (hd_error cs) as [c|] eqn:Hc; [|exfalso; apply (p_ne HP); destruct cs; [reflexivity|discriminate]].
  assert (Ec : nth_error cs 0 = Some c) by (destruct cs; [discriminate|exact Hc]).
  pose proof (lay HP) as L. destruct (layout_page L Ec) as (pg & Ep). pose proof L as (CH & _). destruct (chained_nth CH Ep) as (V1 & V2 & V3).
  destruct (r_ent (n_b Hn) Ec Ep) as (_ & RD). cbn [Z.of_nat Z.mul] in RD. rewrite Z.add_0_r in RD.
  pose proof (r_fits (n_b Hn) Ec Ep) as HF. pose proof (@used_nonneg (column 0 (grows g))).
  pose proof (@sma_pos c). pose proof (few_rows HP Hn) as FR.
  assert (Lj : (j < length (grows g))%nat) by (apply nth_error_Some; congruence).
  rewrite (u16_reg RD) by (unfold block_size, hdr, header_fixed in *; lia). cbn [bind of_opt].
  assert (HO : hd_error (offs P (grows g) j) = Some (fst pg + sma_size c + Z.of_nat j * data_size c)).
  { unfold offs, offs_of. destruct cs as [|c0 cs']; [discriminate|]. destruct (pages_of (c0 :: cs')) as [|p0 pages']; [discriminate|].
    cbn [nth_error] in Ec, Ep. injection Ec as ->. injection Ep as ->. cbn [offs_from hd_error]. destruct c; cbn [offset]; try reflexivity. congruence. }
  rewrite HO. cbn [of_opt bind].
  replace (w16 (Z.quot (fst pg + sma_size c + Z.of_nat j * data_size c - (fst pg + sma_size c)) (data_size c))) with (Z.of_nat j).
  2: { replace (fst pg + sma_size c + Z.of_nat j * data_size c - (fst pg + sma_size c)) with (Z.of_nat j * data_size c) by lia.
       rewrite Z.quot_mul by (destruct c; discriminate). unfold w16. rewrite Z.mod_small; lia. }
  unfold set_node. assert (Li : (i < length gs)%nat) by (apply nth_error_Some; congruence).
  assert (Ln : (i < length (nodes t))%nat) by (rewrite <- (Forall2_length (i_nodes I)); exact Li).
  destruct (@lset_some _ _ _ (Node (blk n) (del n ++ [Z.of_nat j]) (bsum n)) Ln) as (l & Enl). rewrite Enl. cbn [of_opt bind].
  set (g' := G (glo g) (ghi g) (grows g) (gdel g ++ [j])).
  destruct (@lset_some _ _ _ g' Li) as (gs' & Egs).
  exists gs'. eexists. split; [rewrite (assoc_in (tinv_nodup I) H); discriminate|]. split; [reflexivity|].
  assert (SAME : forall x, x <> i -> nth_error gs' x = nth_error gs x).
  { intros x Hx. rewrite (lset_nth x Egs). destruct (Nat.eqb_spec x i); [congruence|reflexivity]. }
  assert (NEW : nth_error gs' i = Some g') by (rewrite (lset_nth i Egs), Nat.eqb_refl; reflexivity).
  destruct (i_chain I) as (ND & B).
  assert (PERM : Permutation (all_locs gs (chain t)) ((i, j, tp) :: all_locs gs' (chain t))).
  { destruct (in_split _ _ Hi) as (c1 & c2 & Ech). rewrite Ech in ND |- *. apply NoDup_remove_2 in ND. rewrite in_app_iff in ND.
    rewrite !all_locs_app. rewrite (@all_locs_same gs gs' c1) by (intros x Hx; apply SAME; intros ->; tauto).
    assert (A1 : all_locs gs (i :: c2) = nlocs i 0 (grows g) (gdel g) ++ all_locs gs c2) by (cbn [all_locs flat_map]; unfold locs_at at 1; now rewrite Eg).
    assert (A2 : all_locs gs' (i :: c2) = nlocs i 0 (grows g) (gdel g ++ [j]) ++ all_locs gs c2).
    { cbn [all_locs flat_map]. unfold locs_at at 1. rewrite NEW. cbn [g' grows gdel]. f_equal.
      apply all_locs_same. intros x Hx. apply SAME. intros ->. tauto. }
    rewrite A1, A2. pose proof (@nlocs_del i (grows g) 0 j (gdel g) tp Ej Nd) as PD. cbn [Nat.add] in PD. rewrite PD.
    symmetry. apply Permutation_middle. }
  assert (IX := i_ix I). apply (ixok_perm PERM) in IX. apply ixok_erase in IX. unfold TableProofs.ekey in IX at 1. cbn [snd] in IX. rewrite Ek in IX.
  assert (RS : forall x, rng gs' x = rng gs x).
  { intros x. unfold rng. destruct (Nat.eq_dec x i) as [->|Nx]; [now rewrite NEW, Eg|now rewrite SAME]. }
  split; cbn [nodes chain index].
  - eapply Forall2_lset; [exact (i_nodes I)| |exact Egs|exact Enl].
    split; cbn [g' glo ghi grows gdel blk del bsum]; try (apply Hn).
    + now rewrite map_app, (n_del Hn).
    + destruct (n_dl Hn) as (D1 & D2). split.
      * apply Permutation_NoDup with (l := j :: gdel g); [apply Permutation_cons_append|]. now constructor.
      * apply Forall_app. split; [exact D2|]. constructor; [exact Lj|constructor].
  - split; [exact ND|]. now rewrite (lset_length Egs).
  - rewrite (map_ext _ _ RS). apply (i_tiles I).
  - destruct IX as (F & N & X). split; [|split; assumption].
    eapply Forall_impl; [|exact F]. intros [[a b] x] (ga & Ega & Eb & Elx).
    destruct (Nat.eq_dec a i) as [->|Na].
    + rewrite Eg in Ega. injection Ega as <-. exists g'. splits; auto.
    + exists ga. splits; auto. now rewrite SAME.
  - assert (Q : Permutation m ((k, tp) :: map (fun e => (ekey e, snd e)) (all_locs gs' (chain t)))).
    { eapply Permutation_trans; [exact (i_map I)|]. eapply Permutation_trans; [apply Permutation_map; exact PERM|].
      cbn [map snd]. unfold TableProofs.ekey at 1. cbn [snd]. rewrite Ek. reflexivity. }
    assert (NK : ~ In k (map fst (map (fun e => (ekey e, snd e)) (all_locs gs' (chain t))))).
    { pose proof (tinv_nodup I) as N0. apply (Permutation_NoDup (Permutation_map fst Q)) in N0. cbn [map fst] in N0. now inversion N0. }
    set (r := map (fun e => (ekey e, snd e)) (all_locs gs' (chain t))) in *. clearbody r.
    assert (PF : forall (a b : tmap), Permutation a b -> Permutation (filter (fun x => negb (fst x =? k)) a) (filter (fun x => negb (fst x =? k)) b)).
    { clear. induction 1; cbn [filter]; auto.
      - destruct (negb (fst x =? k)); auto.
      - destruct (negb (fst x =? k)), (negb (fst y =? k)); auto. apply perm_swap.
      - eapply Permutation_trans; eauto. }
    rewrite (PF _ _ Q). cbn [filter fst]. rewrite Z.eqb_refl. cbn [negb].
    assert (FI : filter (fun x => negb (fst x =? k)) r = r).
    { clear - NK. induction r as [|[a x] r IH]; [reflexivity|]. cbn [filter fst map] in *.
      destruct (Z.eqb_spec a k) as [->|]; [exfalso; apply NK; now left|]. cbn [negb]. f_equal. apply IH. intros X. apply NK. now right. }
    rewrite FI. reflexivity.
Qed.

(** ** Histories *)
Lemma filter_absent (m : tmap) k : assoc m k = None -> filter (fun x => negb (fst x =? k)) m = m.
Proof.
  induction m as [|[a x] m IH]; [reflexivity|]. cbn [assoc filter fst]. destruct (a =? k); [discriminate|]. intros H. cbn [negb]. now rewrite IH.
Qed.

Lemma init_spec : exists t, t_init P = Ok t /\ tinv [G 0 top_value [] []] t [].
Proof.
  pose proof (top_range HP) as TR. unfold t_init.
  replace (w32 (2 ^ Z.of_nat (num_bins (dims P)) - 1)) with top_value by (unfold w32; symmetry; apply Z.mod_small; lia).
  destruct (noderep_new HP (lo := 0) (hi := top_value)) as (b & E & H); [lia|lia|]. rewrite E. cbn [bind].
  eexists. split; [reflexivity|]. split; cbn [nodes chain index].
  - constructor; [exact H|constructor].
  - split; repeat constructor; intros [].
  - cbn. lia.
  - cbn. unfold ixok. splits; auto; [constructor|discriminate].
  - constructor.
Qed.

Lemma step_spec gs t m o : tinv gs t m -> step_ok P dv m o -> exists F gs' t', tinv gs' t' (s_step m o) /\
  forall f, (F <= f)%nat -> t_step P f t o = Ok t'.
Proof.
  intros I H. destruct o as [k tp|k]; cbn [step_ok s_step t_step] in *.
  - destruct H as (Hr & Nk). eapply (insert_spec HP Hr (n := S (Z.to_nat (pot gs (xv P tp) (chain t))))); eauto.
    pose proof (@pot_nonneg gs (xv P tp) (chain t)). lia.
  - destruct (delete_spec k I H) as [(A & E)|(gs' & t' & _ & E & I')].
    + exists 0%nat, gs, t. rewrite E. cbn [bind]. rewrite (filter_absent A). auto.
    + exists 0%nat, gs', t'. rewrite E. cbn [bind]. auto.
Qed.

Lemma run_spec l : forall gs t m, tinv gs t m -> ops_ok P dv m l -> exists F gs' t', tinv gs' t' (s_run m l) /\
  forall f, (F <= f)%nat -> t_run P f t l = Ok t'.
Proof.
  induction l as [|o l IH]; intros gs t m I H.
  - exists 0%nat, gs, t. split; [exact I|]. intros; reflexivity.
  - destruct H as (H1 & H2). destruct (step_spec I H1) as (F1 & gs1 & t1 & I1 & E1).
    destruct (IH gs1 t1 _ I1 H2) as (F2 & gs2 & t2 & I2 & E2).
    exists (Nat.max F1 F2), gs2, t2. split; [exact I2|]. intros f Hf. cbn [t_run]. rewrite E1 by lia. cbn [bind]. apply E2. lia.
Qed.

Lemma step_mono f f' t o r : t_step P f t o = r -> r <> NoFuel -> (f <= f')%nat -> t_step P f' t o = r.
Proof. destruct o; cbn [t_step]; [intros E N L; eapply insert_mono; eauto|auto]. Qed.
Lemma run_mono f f' l : forall t r, t_run P f t l = r -> r <> NoFuel -> (f <= f')%nat -> t_run P f' t l = r.
Proof.
  induction l as [|o l IH]; intros t r E N L; [exact E|]. cbn [t_run] in *.
  destruct (t_step P f t o) as [t'| |] eqn:E1; cbn [bind] in E; try (subst r; congruence).
  - rewrite (step_mono E1) by (auto; discriminate). cbn [bind]. eapply IH; eauto.
  - rewrite (step_mono E1) by (auto; discriminate). exact E.
Qed.

(** Every run of an allowed history, with any fuel: the result is a table for the map, or fuel ran out. *)
Lemma run_any l fuel : ops_ok P dv [] l ->
  (do t <- t_init P; t_run P fuel t l) = NoFuel \/
  exists gs t, (do t0 <- t_init P; t_run P fuel t0 l) = Ok t /\ tinv gs t (s_run [] l).
Proof.
  intros H. destruct init_spec as (t0 & E0 & I0). rewrite E0. cbn [bind].
  destruct (run_spec I0 H) as (F & gs & t & I & E).
  destruct (t_run P fuel t0 l) as [t'| |] eqn:R; [|right|left; reflexivity].
  - right. exists gs, t. split; [|exact I]. rewrite <- (E (Nat.max F fuel)) by lia. symmetry. eapply run_mono; eauto; [discriminate|lia].
  - exfalso. assert (X : t_run P (Nat.max F fuel) t0 l = UB) by (eapply run_mono; eauto; [discriminate|lia]). rewrite E in X by lia. discriminate.
Qed.
Lemma run_ends l : ops_ok P dv [] l -> exists F, forall f, (F <= f)%nat -> exists t, (do t0 <- t_init P; t_run P f t0 l) = Ok t.
Proof.
  intros H. destruct init_spec as (t0 & E0 & I0). destruct (run_spec I0 H) as (F & gs & t & I & E).
  exists F. intros f Hf. exists t. rewrite E0. cbn [bind]. now apply E.
Qed.
End Run.
