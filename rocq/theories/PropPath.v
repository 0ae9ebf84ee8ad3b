(** C05, C09: the trees with sorted leaves for any N, under a condition on the erases. *)
From Verif Require Import Base MapSpec BTreeModel BTreeSpec SLeafModel SLeafProofs EraseSpec PathSpec FewSpec PathProofs PropPBPTree.
Open Scope nat_scope.

(** ** PBPTree *)
(** For N >= 3: right as long as each erase meets the condition of PathSpec on the nodes it passes. *)
Theorem C05_pbptree_path_partial : forall V N M (os : list (mop V)) lo hi,
  2 <= M -> 3 <= N -> hist_ok m_empty os -> path_fine N M (pbp_ops V M) (t_new (pbp_ops V M)) (map bop_of os) = true ->
  exists t out rng, t_run N M (pbp_ops V M) (t_new (pbp_ops V M)) (map bop_of os) = Ok t /\
    (forall k, t_lookup (pbp_ops V M) t k = Ok (m_run os k)) /\
    t_scan (pbp_ops V M) t = Ok out /\ lists (m_run os) out /\
    t_range (pbp_ops V M) t lo hi = Ok rng /\ lists_range (m_run os) lo hi rng /\
    shape N M (M / 2) ((N + 1) / 2 - 1) (pbp_ops V M) (th t) (tdepth t) true (troot t) (length out).
Proof.
  intros V N M os lo hi HM HN. exact (path_all (pbp_laws V HM) (pbp_scan_laws V HM) (pbp_erase_laws V HM) HM HN lo hi).
Qed.
Print Assumptions C05_pbptree_path_partial.

(** Unconditionally while there are fewer than [2 * ceil(N/2) * floor(M/2)] entries. *)
Theorem C05_pbptree_small_partial : forall V N M (os : list (mop V)) lo hi,
  2 <= M -> 3 <= N -> hist_ok m_empty os -> few_hist (2 * ((N + 1) / 2 * (M / 2))) m_empty os ->
  exists t out rng, t_run N M (pbp_ops V M) (t_new (pbp_ops V M)) (map bop_of os) = Ok t /\
    (forall k, t_lookup (pbp_ops V M) t k = Ok (m_run os k)) /\
    t_scan (pbp_ops V M) t = Ok out /\ lists (m_run os) out /\
    t_range (pbp_ops V M) t lo hi = Ok rng /\ lists_range (m_run os) lo hi rng /\
    shape N M (M / 2) ((N + 1) / 2 - 1) (pbp_ops V M) (th t) (tdepth t) true (troot t) (length out).
Proof.
  intros V N M os lo hi HM HN. exact (small_all (pbp_laws V HM) (pbp_scan_laws V HM) (pbp_erase_laws V HM) HM HN lo hi).
Qed.
Print Assumptions C05_pbptree_small_partial.

(** From N = 5 on the condition is exact: the other erases write past a node. *)
Theorem C05_exact_partial : forall V N M (os : list (mop V)) k,
  2 <= M -> 5 <= N -> hist_ok m_empty os ->
  (path_fine N M (pbp_ops V M) (t_new (pbp_ops V M)) (map bop_of os) = true <->
     exists t, t_run N M (pbp_ops V M) (t_new (pbp_ops V M)) (map bop_of os) = Ok t) /\
  (path_fine N M (pbp_ops V M) (t_new (pbp_ops V M)) (map bop_of os) = false <->
     t_run N M (pbp_ops V M) (t_new (pbp_ops V M)) (map bop_of os) = UB) /\
  (forall t, t_run N M (pbp_ops V M) (t_new (pbp_ops V M)) (map bop_of os) = Ok t -> m_run os k <> None ->
     path_ok N M (pbp_ops V M) t (tdepth t) (troot t) k = Ok true /\
       (exists t', t_erase N M (pbp_ops V M) t k = Ok (t', true) /\ forall x, t_lookup (pbp_ops V M) t' x = Ok (m_del (m_run os) k x)) \/
     path_ok N M (pbp_ops V M) t (tdepth t) (troot t) k = Ok false /\ t_erase N M (pbp_ops V M) t k = UB).
Proof.
  intros V N M os k HM HN. exact (exact_all (pbp_laws V HM) (pbp_erase_laws V HM) HM (Nat.le_trans 3 5 N ltac:(auto) HN) k HN).
Qed.
Print Assumptions C05_exact_partial.

(** With N = 4 there are histories of both kinds, on trees of three and four levels. *)
Definition p4 : list (mop nat) := up 1 20 ++ dn 15 3 ++ [OpInsert 155%Z 7; OpErase _ 30%Z; OpErase _ 155%Z].
Example C05_path_ex : let O := pbp_ops nat 4 in
  path_fine 4 4 O (t_new O) (map bop_of p4) = true /\
  (do t <- t_run 4 4 O (t_new O) (map bop_of p4); do v <- t_lookup O t 180%Z; do w <- t_lookup O t 30%Z; Ok (tdepth t, v, w)) = Ok (2, Some 18, None) /\
  path_fine 4 2 (pbp_ops nat 2) (t_new (pbp_ops nat 2)) (map bop_of (up 1 6 ++ [OpInsert 31%Z 0; OpInsert 32%Z 0; OpErase _ 10%Z])) = false.
Proof. vm_compute. auto. Qed.

Definition p5 : list (mop nat) := up 1 11 ++ dn 2 9 ++ up 3 4 ++ dn 1 1.
Example C05_small_ex : hist_ok m_empty p5 /\ few_hist (2 * ((5 + 1) / 2 * (4 / 2))) m_empty p5 /\
  (do t <- t_run 5 4 (pbp_ops nat 4) (t_new (pbp_ops nat 4)) (map bop_of p5); do o <- t_scan (pbp_ops nat 4) t; Ok (tdepth t, map snd o)) = Ok (1, [3; 4; 5; 6; 11]).
Proof.
  splits.
  - vm_compute. repeat split; discriminate.
  - apply (few_keys (K := map (fun i => Z.of_nat (10 * i)) (seq 1 11))).
    + vm_compute. lia.
    + apply Forall_forall. intros o Ho. unfold p5, up, dn in Ho. rewrite !in_app_iff, !in_map_iff in Ho.
      destruct Ho as [(i & <- & Hi)|[(i & <- & Hi)|[(i & <- & Hi)|(i & <- & Hi)]]]; auto; apply in_map_iff; exists i; rewrite in_seq in *; split; auto; lia.
    + intros k H. now destruct H.
  - vm_compute. reflexivity.
Qed.

(** ** BPTree *)
Theorem C09_bptree_path_partial : forall V N M (os : list (mop V)) lo hi,
  2 <= M -> 3 <= N -> hist_ok m_empty os -> path_fine N M (bp_ops V M) (t_new (bp_ops V M)) (map bop_of os) = true ->
  exists t out rng, t_run N M (bp_ops V M) (t_new (bp_ops V M)) (map bop_of os) = Ok t /\
    (forall k, t_lookup (bp_ops V M) t k = Ok (m_run os k)) /\
    t_scan (bp_ops V M) t = Ok out /\ lists (m_run os) out /\
    t_range (bp_ops V M) t lo hi = Ok rng /\ lists_range (m_run os) lo hi rng /\
    shape N M (M / 2) ((N + 1) / 2 - 1) (bp_ops V M) (th t) (tdepth t) true (troot t) (length out).
Proof.
  intros V N M os lo hi HM HN. exact (path_all (bp_laws V HM) (bp_scan_laws V HM) (bp_erase_laws V HM) HM HN lo hi).
Qed.
Print Assumptions C09_bptree_path_partial.

Theorem C09_bptree_small_partial : forall V N M (os : list (mop V)) lo hi,
  2 <= M -> 3 <= N -> hist_ok m_empty os -> few_hist (2 * ((N + 1) / 2 * (M / 2))) m_empty os ->
  exists t out rng, t_run N M (bp_ops V M) (t_new (bp_ops V M)) (map bop_of os) = Ok t /\
    (forall k, t_lookup (bp_ops V M) t k = Ok (m_run os k)) /\
    t_scan (bp_ops V M) t = Ok out /\ lists (m_run os) out /\
    t_range (bp_ops V M) t lo hi = Ok rng /\ lists_range (m_run os) lo hi rng /\
    shape N M (M / 2) ((N + 1) / 2 - 1) (bp_ops V M) (th t) (tdepth t) true (troot t) (length out).
Proof.
  intros V N M os lo hi HM HN. exact (small_all (bp_laws V HM) (bp_scan_laws V HM) (bp_erase_laws V HM) HM HN lo hi).
Qed.
Print Assumptions C09_bptree_small_partial.

Theorem C09_exact_partial : forall V N M (os : list (mop V)) k,
  2 <= M -> 5 <= N -> hist_ok m_empty os ->
  (path_fine N M (bp_ops V M) (t_new (bp_ops V M)) (map bop_of os) = true <->
     exists t, t_run N M (bp_ops V M) (t_new (bp_ops V M)) (map bop_of os) = Ok t) /\
  (path_fine N M (bp_ops V M) (t_new (bp_ops V M)) (map bop_of os) = false <->
     t_run N M (bp_ops V M) (t_new (bp_ops V M)) (map bop_of os) = UB) /\
  (forall t, t_run N M (bp_ops V M) (t_new (bp_ops V M)) (map bop_of os) = Ok t -> m_run os k <> None ->
     path_ok N M (bp_ops V M) t (tdepth t) (troot t) k = Ok true /\
       (exists t', t_erase N M (bp_ops V M) t k = Ok (t', true) /\ forall x, t_lookup (bp_ops V M) t' x = Ok (m_del (m_run os) k x)) \/
     path_ok N M (bp_ops V M) t (tdepth t) (troot t) k = Ok false /\ t_erase N M (bp_ops V M) t k = UB).
Proof.
  intros V N M os k HM HN. exact (exact_all (bp_laws V HM) (bp_erase_laws V HM) HM (Nat.le_trans 3 5 N ltac:(auto) HN) k HN).
Qed.
Print Assumptions C09_exact_partial.

(** With N = 5 on three levels: two erases that are fine; the one of the refutation is not. *)
Example C09_path_ex : let O := bp_ops nat 2 in
  path_fine 5 2 O (t_new O) (map bop_of (up 1 20 ++ dn 17 2)) = true /\
  (do t <- t_run 5 2 O (t_new O) (map bop_of (up 1 20 ++ dn 17 2)); do v <- t_lookup O t 190%Z; Ok (tdepth t, v)) = Ok (2, Some 19) /\
  (do t <- t_run 5 2 O (t_new O) (map bop_of (up 1 9)); path_ok 5 2 O t (tdepth t) (troot t) 10%Z) = Ok false /\
  (do t <- t_run 5 2 O (t_new O) (map bop_of (up 1 9)); t_erase 5 2 O t 10%Z) = UB.
Proof. vm_compute. auto. Qed.
Example C09_small_ex : hist_ok m_empty p5 /\
  (do t <- t_run 5 4 (bp_ops nat 4) (t_new (bp_ops nat 4)) (map bop_of p5); do o <- t_scan (bp_ops nat 4) t; Ok (tdepth t, map snd o)) = Ok (1, [3; 4; 5; 6; 11]).
Proof. split; vm_compute; [repeat split; discriminate|reflexivity]. Qed.
