(** C10, C13, C15 for N >= 3, not only for even N >= 6. *)
From Verif Require Import Base MapSpec RankModel BitmapModel BTreeModel BTreeSpec SLeafModel SLeafProofs ULeafModel FLeafModel EraseSpec PathSpec FewSpec EraseG
  PathProofs PathG PropPBPTree PropUnsorted PropFPTree.
Open Scope nat_scope.

(** ** HPBPTree *)
Theorem C10_hpbptree_any_n : forall V N M (os : list (mop V)) lo hi (O := hpbp_ops V M),
  2 <= M -> 3 <= N -> hist_ok m_empty os -> path_fine N M O (t_new O) (map bop_of os) = true ->
  exists t out rng, t_run N M O (t_new O) (map bop_of os) = Ok t /\
    (forall k, t_lookup O t k = Ok (m_run os k)) /\
    t_scan O t = Ok out /\ lists (m_run os) out /\
    t_range O t lo hi = Ok rng /\ lists_range (m_run os) lo hi rng /\
    shape N M (M / 2) ((N + 1) / 2 - 1) O (th t) (tdepth t) true (troot t) (length out).
Proof.
  intros V N M os lo hi O HM HN. exact (path_all (hpbp_laws V HM) (hpbp_scan_laws V HM) (hpbp_erase_laws V HM) HM HN lo hi).
Qed.
Print Assumptions C10_hpbptree_any_n.

Theorem C10_hpbptree_small : forall V N M (os : list (mop V)) lo hi (O := hpbp_ops V M),
  2 <= M -> 3 <= N -> hist_ok m_empty os -> few_hist (2 * ((N + 1) / 2 * (M / 2))) m_empty os ->
  exists t out rng, t_run N M O (t_new O) (map bop_of os) = Ok t /\
    (forall k, t_lookup O t k = Ok (m_run os k)) /\
    t_scan O t = Ok out /\ lists (m_run os) out /\
    t_range O t lo hi = Ok rng /\ lists_range (m_run os) lo hi rng /\
    shape N M (M / 2) ((N + 1) / 2 - 1) O (th t) (tdepth t) true (troot t) (length out).
Proof.
  intros V N M os lo hi O HM HN. exact (small_all (hpbp_laws V HM) (hpbp_scan_laws V HM) (hpbp_erase_laws V HM) HM HN lo hi).
Qed.
Print Assumptions C10_hpbptree_small.

Example C10_any_n_ex : let O := hpbp_ops nat 4 in let os := up 1 30 ++ dn 29 2 ++ dn 28 1 in
  path_fine 5 4 O (t_new O) (map bop_of os) = true /\
  (do t <- t_run 5 4 O (t_new O) (map bop_of os); do v <- t_lookup O t 270%Z; do w <- t_lookup O t 280%Z; Ok (tdepth t, v, w)) = Ok (2, Some 27, None).
Proof. vm_compute. auto. Qed.

(** ** UnsortedPBPTree *)
Theorem C13_any_n_partial : forall V t N M (os : list (mop V)) (O := un_ops V t M),
  2 <= M -> (1 <= kt_bits t <= 64)%Z -> 3 <= N ->
  hist_ok m_empty os -> Forall (op_in (kt_in t)) os ->
  fine N M O (rm_ok M O) (t_new O) (map bop_of os) = true -> path_fine N M O (t_new O) (map bop_of os) = true ->
  exists tr out, t_run N M O (t_new O) (map bop_of os) = Ok tr /\
    (forall k, t_lookup O tr k = Ok (m_run os k)) /\
    t_scan O tr = Ok out /\ enumerates (m_run os) out /\ in_runs M out /\
    shape N M (M / 2) ((N + 1) / 2 - 1) O (th tr) (tdepth tr) true (troot tr) (length out).
Proof. intros V t N M os O HM Ht HN. exact (@un_path V t N M HM Ht HN os). Qed.
Print Assumptions C13_any_n_partial.

Example C13_any_n_ex : let O := un_ops Z i32 4 in
  let os := ins_of (rising 30) ++ er_of (rev (skipn 24 (rising 30))) in
  Forall (op_in (kt_in i32)) os /\ hist_ok m_empty os /\
  fine 5 4 O (rm_ok 4 O) (t_new O) (map bop_of os) = true /\ path_fine 5 4 O (t_new O) (map bop_of os) = true /\
  (do tr <- t_run 5 4 O (t_new O) (map bop_of os); do s <- t_scan O tr; Ok (tdepth tr, length s)) = Ok (2, 24).
Proof.
  cbv zeta. split; [|split; [vm_compute; repeat split; discriminate|repeat split; vm_compute; reflexivity]].
  apply Forall_forall. intros o Ho.
  assert (H : forallb (fun o => match o with OpInsert k _ | OpErase _ k => (0 <=? k) && (k <=? 1000) end)%Z
    (ins_of (rising 30) ++ er_of (rev (skipn 24 (rising 30)))) = true) by (vm_compute; reflexivity).
  rewrite forallb_forall in H. specialize (H o Ho).
  destruct o as [k v|k]; cbv beta iota in H; apply andb_true_iff in H as [H1 H2]; apply Z.leb_le in H1, H2; unfold op_in, kt_in; cbn; lia.
Qed.

(** ** FPTree *)
Theorem C15_any_n_partial : forall V t fp junk N M (os : list (mop V)) (O := fp_ops V t fp junk M),
  2 <= M -> (N.of_nat M < W)%N -> (1 <= kt_bits t <= 64)%Z -> 3 <= N ->
  Forall (op_in (fun k => kt_in t k /\ (k < kt_max t)%Z)) os ->
  fine N M O (slots_ok M) (t_new O) (map bop_of os) = true -> path_fine N M O (t_new O) (map bop_of os) = true ->
  exists tr out, t_run N M O (t_new O) (map bop_of os) = Ok tr /\
    (forall k, t_lookup O tr k = Ok (m_run os k)) /\
    t_scan O tr = Ok out /\ enumerates (m_run os) out /\ in_runs M out /\
    (forall lo hi, exists rng, t_range O tr lo hi = Ok rng /\ enumerates_range (m_run os) lo hi rng) /\
    shape N M (M / 2) ((N + 1) / 2 - 1) O (th tr) (tdepth tr) true (troot tr) (length out).
Proof. intros V t fp junk N M os O HM HW Ht HN. exact (@fp_path V t N M HM Ht HN fp junk os HW). Qed.
Print Assumptions C15_any_n_partial.

(** With N = 5: two erases in the middle and one of an absent key; the same erases at the beginning are undefined. *)
Example C15_any_n_ex : let O := fp_ops Z i32 fpHash (fun _ => 0%Z) 4 in
  let os := ins_of (rising 30) ++ er_of [110; 120; 5]%Z in
  Forall (op_in (fun k => kt_in i32 k /\ (k < kt_max i32)%Z)) os /\
  fine 5 4 O (slots_ok 4) (t_new O) (map bop_of os) = true /\ path_fine 5 4 O (t_new O) (map bop_of os) = true /\
  (do tr <- t_run 5 4 O (t_new O) (map bop_of os); do a <- t_lookup O tr 110%Z; do b <- t_lookup O tr 130%Z; Ok (tdepth tr, a, b)) = Ok (2, None, Some 131%Z) /\
  t_run 5 4 O (t_new O) (map bop_of (ins_of (rising 30) ++ er_of [10; 20]%Z)) = UB.
Proof.
  cbv zeta. split; [|repeat split; vm_compute; reflexivity].
  apply Forall_forall. intros o Ho.
  assert (H : forallb (fun o => match o with OpInsert k _ | OpErase _ k => (0 <=? k) && (k <=? 1000) end)%Z
    (ins_of (rising 30) ++ er_of [110; 120; 5]%Z) = true) by (vm_compute; reflexivity).
  rewrite forallb_forall in H. specialize (H o Ho).
  destruct o as [k v|k]; cbv beta iota in H; apply andb_true_iff in H as [H1 H2]; apply Z.leb_le in H1, H2; unfold op_in, kt_in, kt_max; cbn; lia.
Qed.
