(** Tables: the properties of histories. *)
From Coq Require Import Permutation.
From Verif Require Import Base SerModel SerProofs BdccModel BdccSpec BdccProofs BlockModel PTableModel BlockSpec
  LayoutProofs BlockBytes ColProofs InsColProofs BlockProofs InitProofs TableSpec TableProofs SplitProofs InsertProofs RunProofs ScanProofs.
Open Scope Z_scope.

Lemma filled_brep dlt dv cs lo hi rows b : dbl_order dv dlt -> cs <> [] -> Z.of_nat (length cs) <= 800 ->
  Forall (tuple_ok dv cs) rows -> filled dlt cs lo hi rows b -> brep dlt dv cs (pages_of cs) lo hi rows b.
Proof.
  intros Hd N L Hr F. induction F as [b E|rows b t b' o F IH Es Eb].
  - destruct (@init_block_spec dlt dv cs lo hi L) as (b' & E' & R). rewrite E in E'. injection E' as ->. exact R.
  - apply Forall_app in Hr. destruct Hr as (Hr & Ht). specialize (IH Hr). apply Forall_inv in Ht.
    destruct (has_enough_space_spec N IH (pages_layout L) Ht) as (r & E & Hs). rewrite Es in E. injection E as <-.
    destruct (proj1 Hs eq_refl) as (_ & Hf).
    destruct (@block_insert_spec dlt dv Hd cs (pages_of cs) lo hi rows t b) as (b1 & E1 & R1); auto; [now apply pages_layout|].
    rewrite Eb in E1. injection E1 as -> _. exact R1.
Qed.

Lemma block_prune : forall dlt dv cs lo hi rows b ps,
  dbl_order dv dlt -> cs <> [] -> Z.of_nat (length cs) <= 800 -> Forall (tuple_ok dv cs) rows -> preds_ok dv cs ps ->
  filled dlt cs lo hi rows b -> rows <> [] ->
  exists r, candidate dlt cs b ps = Ok r /\ (r = false -> forall t, In t rows -> ~ satisfies dlt t ps).
Proof.
  intros dlt dv cs lo hi rows b ps Hd N L Hr Hp F Ne. pose proof (filled_brep Hd N L Hr F) as R.
  exact (candidate_spec Hd R (pages_layout L) Ne Hp).
Qed.


(** The two summary values of a column occur in it and bound it. *)
Lemma block_bounds : forall dlt dv cs lo hi rows b i c,
  dbl_order dv dlt -> cs <> [] -> Z.of_nat (length cs) <= 800 -> Forall (tuple_ok dv cs) rows ->
  filled dlt cs lo hi rows b -> rows <> [] -> nth_error cs i = Some c ->
  exists mn mx, block_sma b (Z.of_nat i) c = Ok (mn, mx) /\ In mn (column i rows) /\ In mx (column i rows) /\
    forall v, In v (column i rows) -> ~ lt_attr dlt v mn /\ ~ lt_attr dlt mx v.
Proof.
  intros dlt dv cs lo hi rows b i c Hd N L Hr F Ne Ec. pose proof (filled_brep Hd N L Hr F) as R.
  pose proof (pages_layout L) as Ly. destruct (layout_page Ly Ec) as (p & Ep).
  exact (block_sma_spec R Ly Ec Ep Ne).
Qed.

Section Top.
Variables (P : params) (dv : Z -> Prop).
Hypothesis HP : params_ok P dv.

Lemma history_inv l fuel t : ops_ok P dv [] l -> history P fuel l = Ok t -> exists gs, tinv P dv gs t (s_run [] l).
Proof.
  intros H E. destruct (run_any HP fuel H) as [C|(gs & t' & E' & I)]; unfold history in *; [congruence|].
  rewrite E in E'. injection E' as ->. eauto.
Qed.
End Top.

Lemma top_tiles : forall P dv l fuel t, params_ok P dv -> ops_ok P dv [] l -> history P fuel l = Ok t ->
  exists rs, ranges t rs /\ tiles 0 (2 ^ Z.of_nat (num_bins (dims P)) - 1) rs.
Proof.
  intros P dv l fuel t HP H E. destruct (history_inv HP H E) as (gs & I).
  exists (map (rng gs) (chain t)). split; [|apply (i_tiles I)].
  unfold ranges. destruct (i_chain I) as (_ & B). induction (chain t) as [|i c IH]; [constructor|]. cbn [map].
  inversion B as [|? ? Bi Bc]; subst. constructor; [|auto].
  destruct (at_node HP (i_nodes I) Bi) as (g & n & _ & En & _ & Er). eauto.
Qed.

Lemma top_get : forall P dv l fuel t k, params_ok P dv -> ops_ok P dv [] l -> history P fuel l = Ok t ->
  get_by_key P t k = Ok (assoc (s_run [] l) k).
Proof. intros P dv l fuel t k HP H E. destruct (history_inv HP H E) as (gs & I). exact (get_spec HP k I). Qed.

Lemma top_count : forall P dv l fuel t, params_ok P dv -> ops_ok P dv [] l -> history P fuel l = Ok t ->
  count t = Ok (Z.of_nat (length (s_run [] l))) /\ NoDup (map fst (s_run [] l)).
Proof.
  intros P dv l fuel t HP H E. destruct (history_inv HP H E) as (gs & I). split; [exact (count_spec HP I)|exact (tinv_nodup I)].
Qed.

Lemma top_delete : forall P dv l1 k l2 fuel t, params_ok P dv -> ops_ok P dv [] (l1 ++ TDelete k :: l2) ->
  (forall tp, ~ In (TInsert k tp) l2) -> history P fuel (l1 ++ TDelete k :: l2) = Ok t -> get_by_key P t k = Ok None.
Proof.
  intros P dv l1 k l2 fuel t HP H N E. rewrite (top_get k HP H E). f_equal. apply assoc_none.
  unfold s_run. rewrite fold_left_app. cbn [fold_left s_step].
  assert (K : ~ In k (map fst (filter (fun x => negb (fst x =? k)) (fold_left s_step l1 [])))).
  { intros C. apply in_map_iff in C. destruct C as ((a, x) & Ea & C). apply filter_In in C. cbn [fst] in *. subst a.
    destruct C as (_ & C). rewrite Z.eqb_refl in C. discriminate. }
  revert K N. generalize (filter (fun x => negb (fst x =? k)) (fold_left s_step l1 [])). clear.
  induction l2 as [|o l2 IH]; intros m K N; [exact K|]. cbn [fold_left]. apply IH.
  - destruct o as [k' tp|k']; cbn [s_step].
    + intros [C|C]; [|contradiction]. cbn [fst] in C. subst k'. apply (N tp). now left.
    + intros C. apply K. apply in_map_iff in C. destruct C as (x & Ex & C). apply filter_In in C. rewrite <- Ex. now apply in_map.
  - intros tp C. apply (N tp). now right.
Qed.

Lemma top_safe : forall P dv l fuel, params_ok P dv -> ops_ok P dv [] l ->
  history P fuel l = NoFuel \/ exists t, history P fuel l = Ok t.
Proof.
  intros P dv l fuel HP H. destruct (run_any HP fuel H) as [C|(gs & t' & E' & I)]; [now left|]. right. eauto.
Qed.
Lemma top_ends : forall P dv l, params_ok P dv -> ops_ok P dv [] l ->
  exists F, forall fuel, (F <= fuel)%nat -> exists t, history P fuel l = Ok t.
Proof. intros P dv l HP H. exact (run_ends HP H). Qed.

Lemma top_prune : forall P dv l fuel t ps c k tp, params_ok P dv -> ops_ok P dv [] l -> history P fuel l = Ok t ->
  preds_ok dv (cols P) ps -> candidates P t (chain t) ps = Ok c ->
  assoc (s_run [] l) k = Some tp -> satisfies (dlt P) tp ps ->
  exists p, ix_lookup (index t) k = Some p /\ In (pnode p) c.
Proof.
  intros P dv l fuel t ps c k tp HP H E Hps Ec A S. destruct (history_inv HP H E) as (gs & I).
  apply assoc_some in A. destruct (tinv_entry I A) as (i & j & g & n & Hi & _ & _ & Eg & _ & _ & Ej & _ & El).
  eexists. split; [exact El|]. cbn [pnode]. eapply (candidates_spec HP Hps (i_nodes I) Ec); eauto. eapply nth_error_In; eauto.
Qed.

Lemma nlocs_rows i rows j : map snd (nlocs i j rows []) = rows.
Proof. revert j; induction rows as [|r rows IH]; intros j; [reflexivity|]. cbn [nlocs existsb app map snd]. now rewrite IH. Qed.

Lemma top_scan : forall P dv l fuel t ps, params_ok P dv -> ops_ok P dv [] l -> history P fuel l = Ok t ->
  past P = true -> no_holes t -> preds_ok dv (cols P) ps ->
  exists F found rest, (forall f, (F <= f)%nat -> range_scan P f t ps = Ok found) /\
    Permutation (map snd (s_run [] l)) (found ++ rest) /\
    Forall (fun tp => satisfies (dlt P) tp ps) found /\ Forall (fun tp => ~ satisfies (dlt P) tp ps) rest.
Proof.
  intros P dv l fuel t ps HP H E Hpast NH Hps. destruct (history_inv HP H E) as (gs & I).
  assert (FN : Forall (full_node P dv gs t) (chain t) /\ flat_map (rows_at gs) (chain t) = map snd (all_locs gs (chain t))).
  { destruct (i_chain I) as (_ & B). unfold no_holes in NH. induction (chain t) as [|i c IH]; [split; [constructor|reflexivity]|].
    inversion B as [|? ? Bi Bc]; subst. inversion NH as [|? ? Ni Nc]; subst. destruct (IH Nc Bc) as (IH1 & IH2).
    destruct (at_node HP (i_nodes I) Bi) as (g & n & Eg & En & Hn & _). destruct Ni as (n' & En' & D' & C').
    rewrite En in En'. injection En' as <-. split.
    - constructor; [|exact IH1]. exists g, n. splits; auto. intros X. apply C'. pose proof (few_rows HP Hn).
      rewrite (u32_reg (r_cnt (n_b Hn))) by lia. now rewrite X.
    - cbn [flat_map all_locs]. fold (all_locs gs c). rewrite map_app, IH2. f_equal. unfold rows_at, locs_at. rewrite Eg.
      rewrite (n_del Hn) in D'. apply map_eq_nil in D'. rewrite D'. symmetry. apply nlocs_rows. }
  destruct FN as (FN & FR). destruct (range_scan_spec HP Hps Hpast FN) as (F & found & rest & E1 & P1 & S1 & S2).
  exists F, found, rest. splits; auto. rewrite <- P1, FR.
  pose proof (Permutation_map snd (i_map I)) as PM. rewrite map_map in PM. cbn [snd] in PM. exact PM.
Qed.

(** The rows of a block: the ones in the index and the deleted ones. *)
Lemma nlocs_perm i (rows : list tuple) : forall dl, NoDup dl -> Forall (fun j => (j < length rows)%nat) dl ->
  exists ds, Forall2 (fun j tp => nth_error rows j = Some tp) dl ds /\ Permutation rows (map snd (nlocs i 0 rows dl) ++ ds).
Proof.
  induction dl as [|j dl IH] using rev_ind; intros ND HB.
  - exists []. split; [constructor|]. now rewrite nlocs_rows, app_nil_r.
  - apply NoDup_remove in ND. rewrite app_nil_r in ND. destruct ND as [ND Nj].
    apply Forall_app in HB. destruct HB as [HB Hj]. apply Forall_inv in Hj.
    destruct (IH ND HB) as (ds & F2 & PM). destruct (nth_error rows j) as [tp|] eqn:Et; [|apply nth_error_None in Et; lia].
    exists (ds ++ [tp]). split; [apply Forall2_app; auto|].
    pose proof (Permutation_map snd (@nlocs_del i rows 0 j dl tp Et Nj)) as PD. cbn [map snd Nat.add] in PD.
    eapply Permutation_trans; [exact PM|]. rewrite PD. cbn [app]. rewrite app_assoc. apply Permutation_cons_append.
Qed.

Lemma top_scan_deleted : forall P dv l fuel t ps, params_ok P dv -> ops_ok P dv [] l -> history P fuel l = Ok t ->
  past P = true -> no_empty t -> preds_ok dv (cols P) ps ->
  exists F ds found rest, deleted_rows P t ds /\ (forall f, (F <= f)%nat -> range_scan P f t ps = Ok found) /\
    Permutation (map snd (s_run [] l) ++ ds) (found ++ rest) /\
    Forall (fun tp => satisfies (dlt P) tp ps) found /\ Forall (fun tp => ~ satisfies (dlt P) tp ps) rest.
Proof.
  intros P dv l fuel t ps HP H E Hpast NH Hps. destruct (history_inv HP H E) as (gs & I).
  assert (FN : Forall (full_node P dv gs t) (chain t) /\ exists ds, deleted_rows P t ds /\
    Permutation (flat_map (rows_at gs) (chain t)) (map snd (all_locs gs (chain t)) ++ ds)).
  { destruct (i_chain I) as (_ & B). unfold no_empty in NH. unfold deleted_rows. induction (chain t) as [|i c IH].
    { split; [constructor|]. exists []. split; [|reflexivity]. exists []. split; constructor. }
    inversion B as [|? ? Bi Bc]; subst. inversion NH as [|? ? Ni Nc]; subst. destruct (IH Nc Bc) as (IH1 & ds & (dss & -> & F2) & PM).
    destruct (at_node HP (i_nodes I) Bi) as (g & n & Eg & En & Hn & _). destruct Ni as (n' & En' & C').
    rewrite En in En'. injection En' as <-. destruct (n_dl Hn) as [D1 D2].
    destruct (nlocs_perm i D1 D2) as (ds & Fd & Pd). split.
    - constructor; [|exact IH1]. exists g, n. splits; auto. intros X. apply C'. pose proof (few_rows HP Hn).
      rewrite (u32_reg (r_cnt (n_b Hn))) by lia. now rewrite X.
    - exists (ds ++ concat dss). split.
      + exists (ds :: dss). split; [reflexivity|]. constructor; [|exact F2]. exists n. split; [exact En|].
        rewrite (n_del Hn). clear - Fd Hn HP. induction Fd as [|j tp dl ds Ej Fd IH]; cbn [map]; constructor; auto.
        exists (offs_of (cols P) (pages_of (cols P)) (grows g) j). split.
        * apply (row_offsets_spec (n_b Hn) (lay HP)). apply nth_error_Some. congruence.
        * exact (create_tuple_spec (n_b Hn) (lay HP) Ej).
      + cbn [flat_map all_locs]. fold (all_locs gs c). rewrite map_app, PM. unfold rows_at at 1, locs_at. rewrite Eg.
        rewrite Pd at 1. rewrite <- !app_assoc. apply Permutation_app_head. rewrite app_assoc, (Permutation_app_comm ds), <- app_assoc. reflexivity. }
  destruct FN as (FN & ds & DR & FR). destruct (range_scan_spec HP Hps Hpast FN) as (F & found & rest & E1 & P1 & S1 & S2).
  exists F, ds, found, rest. splits; auto. rewrite <- P1, FR. apply Permutation_app_tail.
  pose proof (Permutation_map snd (i_map I)) as PM. rewrite map_map in PM. cbn [snd] in PM. exact PM.
Qed.
