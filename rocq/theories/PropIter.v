(** C71: the iterators of UnsortedPBPTree, FPTree, BitPBPTree, BitHPBPTree and wBPTree. *)
From Verif Require Import Base MapSpec SortedList RankModel BitmapModel BTreeModel BTreeSpec BTreeLaws BTreeInsert BTreeMain SLeafModel ULeafModel ULeafProofs UTreeProofs
  FLeafModel FLeafProofs FTreeProofs EraseSpec EraseG InsSpec XTree BitTreeModel BitProofs BitHModel BitHProofs WbModel WbTree SIterModel SIterProofs BIterModel BIterMain
  PropUnsorted PropFPTree PropBit PropBitH.
Open Scope nat_scope.

(** An empty tree: begin() looks for a used slot beyond the bitmap of the only leaf (dereferences an unset entry,
    with UnsortedPBPTree). *)
Theorem C71_empty_refuted : exists os : list (mop Z), forall fuel (O := fp_ops Z i32 fpHash (fun _ => 0%Z) 4) (U := un_ops Z i32 4),
  (forall k, m_run os k = None) /\
  (do tr <- t_run 4 4 O (t_new O) (map bop_of os); fp_iter 4 fuel tr) = UB /\
  (do tr <- t_run 4 4 U (t_new U) (map bop_of os); it_all (S fuel) tr) = UB /\
  bit_iter 4 fuel (bt_new Z i32 4) = UB /\ bit_iter 4 fuel (bh_new Z i32 4) = UB /\ w_iter 4 fuel (wt_new Z 4) = UB.
Proof. exists []. intros fuel. repeat split. Qed.
Print Assumptions C71_empty_refuted.

(** The iteration starts at children[0] of every level, which is not the leftmost leaf any more after a split of that. *)
Theorem C71_first_refuted : exists os : list (Z * Z), NoDup (map fst os) /\
  (do tr <- bt_run i32 4 4 (bt_new Z i32 4) os; bit_iter 4 100 tr) = Ok [(30, 31); (20, 21); (50, 51); (40, 41)]%Z /\
  (do tr <- bh_run i32 4 4 (bh_new Z i32 4) os; bit_iter 4 100 tr) = Ok [(30, 31); (20, 21); (50, 51); (40, 41)]%Z.
Proof.
  exists [(50, 51); (40, 41); (30, 31); (20, 21); (10, 11); (5, 6); (3, 4)]%Z. split; [|split; vm_compute; reflexivity].
  repeat constructor; cbn; intuition congruence.
Qed.
Print Assumptions C71_first_refuted.
Theorem C71_wbptree_refuted : exists os : list (Z * Z), NoDup (map fst os) /\ m_run (inserts os) 20%Z = Some 7%Z /\
  (do t <- wt_run 4 4 (wt_new Z 4) os; w_iter 4 100 t) = Ok [(50, 1); (60, 2); (70, 3); (80, 4)]%Z.
Proof.
  exists [(50, 1); (60, 2); (70, 3); (80, 4); (40, 5); (30, 6); (20, 7)]%Z. split; [|split; vm_compute; reflexivity].
  repeat constructor; cbn; intuition congruence.
Qed.
Print Assumptions C71_wbptree_refuted.

(** In any state at all: if the scan ends and meets no empty leaf, the iteration gives the same entries in the
    same order. *)
Theorem C71_fptree_scan : forall V t fp junk M (tr : tree (fleaf V)) out (O := fp_ops V t fp junk M), 1 <= M ->
  t_scan O tr = Ok out ->
  (forall i, leftmost (th tr) (tdepth tr) (troot tr) = Ok i -> no_empty O (S (hfresh (th tr))) (th tr) (Some i)) ->
  forall fuel, length out <= fuel -> fp_iter M fuel tr = Ok out.
Proof. intros V t fp junk M tr out O HM. exact (@fp_iter_scan V M O (fun l => eq_refl) HM tr out). Qed.
Print Assumptions C71_fptree_scan.
Theorem C71_bit_scan : forall V t M (tr : btree V) out, 1 <= M -> bt_scan t M tr = Ok out ->
  (forall i, bt_first (btb tr) (bdepth tr) (broot tr) = Ok i -> no_empty (bit_ops V t M) (S (hfresh (bth tr))) (bth tr) (Some i)) ->
  forall fuel, length out <= fuel -> bit_iter M fuel tr = Ok out.
Proof. intros V t M tr out HM. exact (@bit_iter_scan V M (bit_ops V t M) (fun l => eq_refl) HM tr out). Qed.
Print Assumptions C71_bit_scan.

(** FPTree: every stored entry once. *)
Theorem C71_fptree_partial : forall V t fp junk N M (os : list (mop V)) k (O := fp_ops V t fp junk M),
  2 <= M -> (N.of_nat M < W)%N -> 2 <= N -> (1 <= kt_bits t <= 64)%Z -> Forall (ins_ok (kt_in t)) os -> m_run os k <> None ->
  exists tr out, t_run N M O (t_new O) (map bop_of os) = Ok tr /\ enumerates (m_run os) out /\
    t_scan O tr = Ok out /\ forall fuel, length out <= fuel -> fp_iter M fuel tr = Ok out.
Proof.
  intros V t fp junk N M os k O HM HW HN Ht F Hk. pose proof (flz_laws V fp junk HM HW Ht) as LL.
  destruct (io_hist LL HN F) as (tr & es & E & I & G). destruct (t_scan_perm LL HN (le_n _) I) as (out & Eo & P & R).
  exists tr, out. splits; auto.
  - eapply enumerates_ext; [exact G|]. apply perm_enumerates; auto. eapply tinv_sorted; eauto.
  - assert (HL : 1 <= M / 2) by (apply (Nat.div_le_mono 2 M 2); lia).
    eapply (@fp_iter_ok V N M (M / 2) _ O _ _ (fun l => eq_refl) LL HL ltac:(lia)); eauto. intros ->. apply Hk. now rewrite <- G.
Qed.
Print Assumptions C71_fptree_partial.

(** With erases that meet the condition of [C15_guarded_partial]. *)
Theorem C71_fptree_erase_partial : forall V t fp junk N M (os : list (mop V)) k (O := fp_ops V t fp junk M),
  2 <= M -> (N.of_nat M < W)%N -> (1 <= kt_bits t <= 64)%Z -> 6 <= N -> Nat.even N = true ->
  Forall (op_in (fun k => kt_in t k /\ (k < kt_max t)%Z)) os -> fine N M O (slots_ok M) (t_new O) (map bop_of os) = true ->
  m_run os k <> None ->
  exists tr out, t_run N M O (t_new O) (map bop_of os) = Ok tr /\ enumerates (m_run os) out /\
    t_scan O tr = Ok out /\ forall fuel, length out <= fuel -> fp_iter M fuel tr = Ok out.
Proof.
  intros V t fp junk N M os k O HM HW Ht HN HE FK FF Hk. destruct (even_half HE) as [H1 H2].
  pose proof (@flm_laws V t fp junk M HM HW Ht) as LL.
  destruct (@hist_guard_new _ _ N M O _ _ _ (M / 2) (N / 2 - 1) _ LL (@fl_core V t fp junk N M HM HW HN) ltac:(lia) ltac:(lia) ltac:(lia) ltac:(lia) ltac:(lia)
    _ (@slots_good V t fp junk N M HM HW HN) os (or_intror (@fl_absent_fine V t fp junk M)) FK FF) as (tr & es & E & I & G).
  assert (HN2 : 2 <= N) by lia. assert (HB : N / 2 - 1 <= (N + 1) / 2 - 1) by lia.
  destruct (t_scan_perm LL HN2 HB I) as (out & Eo & P & R).
  exists tr, out. splits; auto.
  - eapply enumerates_ext; [exact G|]. apply perm_enumerates; auto. eapply tinv_sorted; eauto.
  - assert (HL : 1 <= M / 2) by (apply (Nat.div_le_mono 2 M 2); lia).
    eapply (@fp_iter_ok V N M (M / 2) _ O _ _ (fun l => eq_refl) LL HL ltac:(lia)); eauto. intros ->. apply Hk. now rewrite <- G.
Qed.
Print Assumptions C71_fptree_erase_partial.

(** UnsortedPBPTree. *)
Theorem C71_unsorted_partial : forall V t N M (os : list (mop V)) k (O := un_ops V t M),
  2 <= M -> 2 <= N -> (1 <= kt_bits t <= 64)%Z -> Forall (ins_ok (kt_in t)) os -> m_run os k <> None ->
  exists tr out, t_run N M O (t_new O) (map bop_of os) = Ok tr /\ enumerates (m_run os) out /\
    t_scan O tr = Ok out /\ forall fuel, length out <= fuel -> it_all fuel tr = Ok out.
Proof.
  intros V t N M os k O HM HN Ht F Hk. pose proof (ul_laws V HM Ht) as LL.
  destruct (io_hist LL HN F) as (tr & es & E & I & G). destruct (t_scan_perm LL HN (le_n _) I) as (out & Eo & P & R).
  exists tr, out. splits; auto.
  - eapply enumerates_ext; [exact G|]. apply perm_enumerates; auto. eapply tinv_sorted; eauto.
  - assert (HL : 1 <= M / 2) by (apply (Nat.div_le_mono 2 M 2); lia).
    apply (@scan_it_all V O (fun l => eq_refl) tr out Eo). apply (tinv_full LL I); auto. intros ->. apply Hk. now rewrite <- G.
Qed.
Print Assumptions C71_unsorted_partial.
Theorem C71_unsorted_erase_partial : forall V t N M (os : list (mop V)) k (O := un_ops V t M),
  2 <= M -> (1 <= kt_bits t <= 64)%Z -> 6 <= N -> Nat.even N = true ->
  hist_ok m_empty os -> Forall (op_in (kt_in t)) os -> fine N M O (rm_ok M O) (t_new O) (map bop_of os) = true -> m_run os k <> None ->
  exists tr out, t_run N M O (t_new O) (map bop_of os) = Ok tr /\ enumerates (m_run os) out /\
    t_scan O tr = Ok out /\ forall fuel, length out <= fuel -> it_all fuel tr = Ok out.
Proof.
  intros V t N M os k O HM Ht HN HE F FK FF Hk. destruct (even_half HE) as [H1 H2]. pose proof (ul_laws V HM Ht) as LL.
  destruct (@hist_guard_new _ _ N M O _ _ _ (M / 2) (N / 2 - 1) _ LL (@ul_core V t M) ltac:(lia) ltac:(lia) ltac:(lia) ltac:(lia) ltac:(lia)
    _ (@rm_good _ _ M O (fun _ _ _ => True) (fun _ _ _ => Logic.I)) os (or_introl F) FK FF) as (tr & es & E & I & G).
  assert (HN2 : 2 <= N) by lia. assert (HB : N / 2 - 1 <= (N + 1) / 2 - 1) by lia.
  destruct (t_scan_perm LL HN2 HB I) as (out & Eo & P & R).
  exists tr, out. splits; auto.
  - eapply enumerates_ext; [exact G|]. apply perm_enumerates; auto. eapply tinv_sorted; eauto.
  - assert (HL : 1 <= M / 2) by (apply (Nat.div_le_mono 2 M 2); lia).
    apply (@scan_it_all V O (fun l => eq_refl) tr out Eo). apply (tinv_full LL I); auto. intros ->. apply Hk. now rewrite <- G.
Qed.
Print Assumptions C71_unsorted_erase_partial.

(** BitPBPTree, BitHPBPTree and wBPTree: inserts in ascending order. *)
Lemma asc_nonempty {V} (os : list (Z * V)) : os <> [] -> ins_all os [] <> [].
Proof.
  assert (HI : forall k (v : V) es, ins k v es <> []).
  { intros k v [|[x w] es]; cbn [ins]; [discriminate|]. repeat match goal with |- context [if ?b then _ else _] => destruct b end; discriminate. }
  assert (HX : forall (r : list (Z * V)) es, es <> [] -> ins_all r es <> []).
  { induction r as [|[x w] r IH]; intros es He; cbn [ins_all]; auto. }
  intros H. destruct os as [|[k v] os]; [congruence|]. cbn [ins_all]. auto.
Qed.
Section BitAsc.
Variables (V : Type) (t : ktype) (N M : nat).
Hypothesis Ht : (1 <= kt_bits t <= 64)%Z.
Hypothesis HN : 2 <= N.
Hypothesis H64 : N mod 64 <> 0.
Hypothesis HM : 2 <= M.
Variable O : leafops (fleaf V) V.
Variable rep : fleaf V -> list (Z * V) -> Prop.
Hypothesis LL : leaf_laws O M (M / 2) (bkok t) rep.
Hypothesis rk : forall l es, rep l es -> Forall (bkok t) (keys es).
Hypothesis HO : forall l, lo_scan O l = fl_scan M l.

Lemma bg_iter_asc os : Forall (fun k => 0 <= k < kt_max t)%Z (map fst os) -> ascending os -> os <> [] ->
  exists tr out, bg_run t N O (bg_new O) os = Ok tr /\ enumerates (m_run (inserts os)) out /\
    forall fuel, length out <= fuel -> bit_iter M fuel tr = Ok out.
Proof.
  intros HF0 HA HE. assert (HF : Forall (bkok t) (map fst os)) by (eapply Forall_impl; [|exact HF0]; intros k Hk; now apply bkok_of).
  destruct (@bg_run_sp V t N M Ht HN H64 HM O rep LL rk os _ [] HF HA ltac:(intros x Hx; contradiction Hx) (@bg_new_inv V t N M HN O rep LL)) as (tr & E & HI).
  destruct (@bg_scan_ok V t N M Ht HN H64 HM O rep LL rk tr _ HI) as (out & E2 & HP & HR). exists tr, out. splits; auto.
  - eapply enumerates_ext; [|apply (@perm_enumerates V (ins_all os []) out); auto].
    + intros k. apply ins_all_run.
    + apply ins_all_sorted. constructor.
  - apply (@bit_iter_scan V M O HO ltac:(lia) tr out E2). intros i Ei.
    exact (xinvs_full LL (bit_laws Ht HN H64) HI (asc_nonempty HE) (HML HN H64 HM) _ Ei).
Qed.
End BitAsc.

Theorem C71_bit_ascending_partial : forall V t (N M : nat) (os : list (Z * V)),
  (1 <= kt_bits t <= 64)%Z -> 2 <= N -> N mod 64 <> 0 -> 2 <= M -> (N.of_nat M < W)%N ->
  Forall (fun k => 0 <= k < kt_max t)%Z (map fst os) -> ascending os -> os <> [] ->
  exists tr out, bt_run t N M (bt_new V t M) os = Ok tr /\ enumerates (m_run (inserts os)) out /\
    forall fuel, length out <= fuel -> bit_iter M fuel tr = Ok out.
Proof.
  intros V t N M os Ht HN H64 HM HW.
  exact (@bg_iter_asc V t N M Ht HN H64 HM _ _ (bit_leaf_laws V Ht HM HW) (@bit_rep_kok V t M) (fun l => eq_refl) os).
Qed.
Print Assumptions C71_bit_ascending_partial.
Theorem C71_bith_ascending_partial : forall V t (N M : nat) (os : list (Z * V)),
  (1 <= kt_bits t <= 64)%Z -> 2 <= N -> N mod 64 <> 0 -> 2 <= M -> M mod 64 <> 0 -> (N.of_nat M < W)%N ->
  Forall (fun k => 0 <= k < kt_max t)%Z (map fst os) -> ascending os -> os <> [] ->
  exists tr out, bh_run t N M (bh_new V t M) os = Ok tr /\ enumerates (m_run (inserts os)) out /\
    forall fuel, length out <= fuel -> bit_iter M fuel tr = Ok out.
Proof.
  intros V t N M os Ht HN H64 HM HM64 HW.
  exact (@bg_iter_asc V t N M Ht HN H64 HM _ _ (bh_leaf_laws V HM HW Ht HM64) (@bh_rep_kok V t M) (fun l => eq_refl) os).
Qed.
Print Assumptions C71_bith_ascending_partial.
Theorem C71_wbptree_ascending_partial : forall V (N M : nat) (os : list (Z * V)), 2 <= N -> 2 <= M -> ascending os -> os <> [] ->
  exists t out, wt_run N M (wt_new V M) os = Ok t /\ enumerates (m_run (inserts os)) out /\
    forall fuel, length out <= fuel -> w_iter M fuel t = Ok out.
Proof.
  intros V N M os HN HM HA HE.
  destruct (@wt_run_asc V N M HN HM os _ [] HA ltac:(intros x Hx; contradiction Hx) (wt_new_inv V HN HM)) as (t & E & HI).
  destruct (w_iter_ok HN HM HI (asc_nonempty HE)) as (out & P & HX). exists t, out. splits; auto.
  eapply enumerates_ext; [|apply (@perm_enumerates V (ins_all os []) out); auto].
  - intros k. apply ins_all_run.
  - apply ins_all_sorted. constructor.
Qed.
Print Assumptions C71_wbptree_ascending_partial.

(** ** Concrete cases *)
Example C71_fptree_ex : let O := fp_ops Z i32 fpHash (fun _ => 0%Z) 4 in let os := ins_of (rising 60) ++ er_of (firstn 40 (rising 60)) in
  fine 6 4 O (slots_ok 4) (t_new O) (map bop_of os) = true /\ m_run os 410%Z = Some 411%Z /\
  (do tr <- t_run 6 4 O (t_new O) (map bop_of os); do o <- fp_iter 4 20 tr; Ok (tdepth tr, map fst o)) =
  Ok (2, map (fun i => 410 + 10 * Z.of_nat i)%Z (seq 0 20)).
Proof. cbv zeta. repeat split; vm_compute; reflexivity. Qed.
(** Slots out of key order. *)
Example C71_fptree_order_ex : let O := fp_ops Z i32 fpHash (fun _ => 0%Z) 3 in
  (do tr <- t_run 4 3 O (t_new O) (map bop_of (ins_of (scrambled 60))); do o <- fp_iter 3 60 tr; Ok (tdepth tr, length o, firstn 6 (map fst o))) =
  Ok (3, 60, [-47; -48; -44; -45; -40; -41]%Z).
Proof. vm_compute. reflexivity. Qed.
Example C71_unsorted_ex : let O := un_ops Z i32 4 in let os := ins_of (scrambled 60) ++ er_of (firstn 30 (rev (scrambled 60))) in
  fine 6 4 O (rm_ok 4 O) (t_new O) (map bop_of os) = true /\ m_run os (-13)%Z = Some (-12)%Z /\
  (do tr <- t_run 6 4 O (t_new O) (map bop_of os); do o <- it_all 30 tr; Ok (tdepth tr, length o)) = Ok (2, 30).
Proof. cbv zeta. repeat split; vm_compute; reflexivity. Qed.
Example C71_bit_ex : Forall (fun k => 0 <= k < kt_max i32)%Z (map fst (asc_bit 40)) /\ ascending (asc_bit 40) /\
  (do tr <- bt_run i32 3 3 (bt_new Z i32 3) (asc_bit 40); do o <- bit_iter 3 40 tr; Ok (bdepth tr, length o, firstn 5 (map fst o))) =
  Ok (3, 40, [0; 7; 14; 21; 28]%Z) /\
  (do tr <- bh_run i32 3 3 (bh_new Z i32 3) (asc_bit 40); do o <- bit_iter 3 40 tr; Ok (bdepth tr, length o, firstn 5 (map fst o))) =
  Ok (3, 40, [0; 7; 21; 14; 35]%Z) /\
  (do tr <- wt_run 3 4 (wt_new Z 4) (asc_bit 30); do o <- w_iter 4 30 tr; Ok (wdepth tr, length o, firstn 5 (map fst o))) =
  Ok (3, 30, [0; 7; 14; 21; 28]%Z).
Proof. split; [apply keys_b; vm_compute; reflexivity|]. split; [apply asc_b_ok; vm_compute; reflexivity|]. repeat split; vm_compute; reflexivity. Qed.
