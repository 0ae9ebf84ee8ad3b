(** Erases of any keys in the classes with sorted leaves. *)
From Verif Require Import Base MapSpec BTreeModel BTreeSpec BTreeErase PathSpec SLeafModel SLeafProofs BTreeMain AbsentSpec AbsentProofs PropPBPTree.
Open Scope nat_scope.

(** * C04: the complete description of an erase of a key that is not stored, [N] from 5 on.  The slot behind the last entry of
    the leaf decides: nothing happens, the largest key below [k] is erased, or the behaviour is undefined.  With odd [N] it is
    undefined too if the branch nodes cannot be repaired (PathSpec, see C05).
    Missing from the claim: that only the first of these occurs (refuted). *)
Theorem C04_pbptree_erase_absent_exact_partial : forall V N M (os : list (mop V)) t,
  2 <= M -> 5 <= N -> t_run N M (pbp_ops V M) (t_new (pbp_ops V M)) (map bop_of os) = Ok t ->
  exists m, after m_empty os m /\ (forall x, t_lookup (pbp_ops V M) t x = Ok (m x)) /\ forall k, m k = None ->
  exists j l, find_leaf (pbp_ops V M) (th t) (tdepth t) (troot t) k = Ok j /\ hl (th t) j = Some l /\
  match slot_kind l k with
  | None => t_erase N M (pbp_ops V M) t k = UB
  | Some r => exists c, path_ok N M (pbp_ops V M) t (tdepth t) (troot t) k = Ok c /\ (Nat.even N = true -> c = true) /\
      if c then exists t' m', t_erase N M (pbp_ops V M) t k = Ok (t', r) /\ (forall x, t_lookup (pbp_ops V M) t' x = Ok (m' x)) /\
                  if r then exists p, below m k p /\ forall x, m' x = m_del m p x else forall x, m' x = m x
      else t_erase N M (pbp_ops V M) t k = UB
  end.
Proof. intros V N M os t HM HN. exact (@sorted_exact V N M (pbp_ops V M) (pbp_laws V HM) (pbp_erase_laws V HM) (@pbp_slot V M HM) HM HN os t). Qed.
Print Assumptions C04_pbptree_erase_absent_exact_partial.

Theorem C04_pbptree_erase_absent_any_history_partial : forall V N M (os : list (mop V)), 2 <= M -> 5 <= N ->
  t_run N M (pbp_ops V M) (t_new (pbp_ops V M)) (map bop_of os) = UB \/
  exists t m, t_run N M (pbp_ops V M) (t_new (pbp_ops V M)) (map bop_of os) = Ok t /\ after m_empty os m /\
    forall x, t_lookup (pbp_ops V M) t x = Ok (m x).
Proof. intros V N M os HM HN. exact (@sorted_any V N M (pbp_ops V M) (pbp_laws V HM) (pbp_erase_laws V HM) (@pbp_slot V M HM) HM HN os). Qed.
Print Assumptions C04_pbptree_erase_absent_any_history_partial.

(** * C93: BPTree and HPBPTree. *)
Theorem C93_bptree_erase_exact : forall V N M (os : list (mop V)) t,
  2 <= M -> 5 <= N -> t_run N M (bp_ops V M) (t_new (bp_ops V M)) (map bop_of os) = Ok t ->
  exists m, after m_empty os m /\ (forall x, t_lookup (bp_ops V M) t x = Ok (m x)) /\ forall k, m k = None ->
  exists j l, find_leaf (bp_ops V M) (th t) (tdepth t) (troot t) k = Ok j /\ hl (th t) j = Some l /\
  match slot_kind l k with
  | None => t_erase N M (bp_ops V M) t k = UB
  | Some r => exists c, path_ok N M (bp_ops V M) t (tdepth t) (troot t) k = Ok c /\ (Nat.even N = true -> c = true) /\
      if c then exists t' m', t_erase N M (bp_ops V M) t k = Ok (t', r) /\ (forall x, t_lookup (bp_ops V M) t' x = Ok (m' x)) /\
                  if r then exists p, below m k p /\ forall x, m' x = m_del m p x else forall x, m' x = m x
      else t_erase N M (bp_ops V M) t k = UB
  end.
Proof. intros V N M os t HM HN. exact (@sorted_exact V N M (bp_ops V M) (bp_laws V HM) (bp_erase_laws V HM) (@bp_slot V M HM) HM HN os t). Qed.
Print Assumptions C93_bptree_erase_exact.

Theorem C93_bptree_erase_any_history : forall V N M (os : list (mop V)), 2 <= M -> 5 <= N ->
  t_run N M (bp_ops V M) (t_new (bp_ops V M)) (map bop_of os) = UB \/
  exists t m, t_run N M (bp_ops V M) (t_new (bp_ops V M)) (map bop_of os) = Ok t /\ after m_empty os m /\
    forall x, t_lookup (bp_ops V M) t x = Ok (m x).
Proof. intros V N M os HM HN. exact (@sorted_any V N M (bp_ops V M) (bp_laws V HM) (bp_erase_laws V HM) (@bp_slot V M HM) HM HN os). Qed.
Print Assumptions C93_bptree_erase_any_history.

Theorem C93_hpbptree_erase_exact : forall V N M (os : list (mop V)) t,
  2 <= M -> 5 <= N -> t_run N M (hpbp_ops V M) (t_new (hpbp_ops V M)) (map bop_of os) = Ok t ->
  exists m, after m_empty os m /\ (forall x, t_lookup (hpbp_ops V M) t x = Ok (m x)) /\ forall k, m k = None ->
  exists j l, find_leaf (hpbp_ops V M) (th t) (tdepth t) (troot t) k = Ok j /\ hl (th t) j = Some l /\
  match slot_kind l k with
  | None => t_erase N M (hpbp_ops V M) t k = UB
  | Some r => exists c, path_ok N M (hpbp_ops V M) t (tdepth t) (troot t) k = Ok c /\ (Nat.even N = true -> c = true) /\
      if c then exists t' m', t_erase N M (hpbp_ops V M) t k = Ok (t', r) /\ (forall x, t_lookup (hpbp_ops V M) t' x = Ok (m' x)) /\
                  if r then exists p, below m k p /\ forall x, m' x = m_del m p x else forall x, m' x = m x
      else t_erase N M (hpbp_ops V M) t k = UB
  end.
Proof. intros V N M os t HM HN. exact (@sorted_exact V N M (hpbp_ops V M) (hpbp_laws V HM) (hpbp_erase_laws V HM) (@hpbp_slot V M HM) HM HN os t). Qed.
Print Assumptions C93_hpbptree_erase_exact.

Theorem C93_hpbptree_erase_any_history : forall V N M (os : list (mop V)), 2 <= M -> 5 <= N ->
  t_run N M (hpbp_ops V M) (t_new (hpbp_ops V M)) (map bop_of os) = UB \/
  exists t m, t_run N M (hpbp_ops V M) (t_new (hpbp_ops V M)) (map bop_of os) = Ok t /\ after m_empty os m /\
    forall x, t_lookup (hpbp_ops V M) t x = Ok (m x).
Proof. intros V N M os HM HN. exact (@sorted_any V N M (hpbp_ops V M) (hpbp_laws V HM) (hpbp_erase_laws V HM) (@hpbp_slot V M HM) HM HN os). Qed.
Print Assumptions C93_hpbptree_erase_any_history.

(** Erases of stored keys only leave the map of C01. *)
Theorem C93_after_stored : forall V (os : list (mop V)) m, hist_ok m_empty os -> after m_empty os m -> forall x, m x = m_run os x.
Proof. intros V os m H A. exact (after_hist A H). Qed.
Print Assumptions C93_after_stored.

(** All three cases, in a tree of three leaves: 70 was erased from the last one and is still in the slot behind 60.
    35, 65 and 99 change nothing; 70 takes 60, and then 60 takes 50.  Before the erase of 70 the slot behind it was never written,
    and an eighth entry fills the leaf. *)
Definition abs_hist : list (mop nat) := up 1 7 ++ [OpErase _ 70%Z].
Definition abs_kind (O : leafops (sleaf nat) nat) (os : list (mop nat)) (k : Z) : res (option bool) :=
  do t <- t_run 6 4 O (t_new O) (map bop_of os);
  do j <- find_leaf O (th t) (tdepth t) (troot t) k; do l <- of_opt (hl (th t) j); Ok (slot_kind l k).
Definition abs_after (O : leafops (sleaf nat) nat) (os : list (mop nat)) : res (list Z) :=
  do t <- t_run 6 4 O (t_new O) (map bop_of os); do o <- t_scan O t; Ok (map fst o).
Example C04_exact_ex : let O := pbp_ops nat 4 in
  map (abs_kind O abs_hist) [35; 65; 99; 70]%Z = [Ok (Some false); Ok (Some false); Ok (Some false); Ok (Some true)] /\
  abs_after O abs_hist = Ok [10; 20; 30; 40; 50; 60]%Z /\
  abs_after O (abs_hist ++ [OpErase _ 99; OpErase _ 70])%Z = Ok [10; 20; 30; 40; 50]%Z /\
  abs_after O (abs_hist ++ [OpErase _ 70; OpErase _ 60])%Z = Ok [10; 20; 30; 40]%Z /\
  map (abs_kind O (up 1 7)) [75; 65]%Z = [Ok None; Ok (Some false)] /\ abs_after O (up 1 7 ++ [OpErase _ 75%Z]) = UB /\
  map (abs_kind O (up 1 8)) [85; 65]%Z = [Ok None; Ok (Some false)] /\ abs_after O (up 1 8 ++ [OpErase _ 85%Z]) = UB.
Proof. cbv zeta. splits; vm_compute; reflexivity. Qed.
(** With N = 5: 250 is not stored, its slot is stale, and no branch node can take what is left; with N = 6 one can. *)
Definition abs_path (N M : nat) (O : leafops (sleaf nat) nat) (os : list (mop nat)) (k : Z) : res (option bool * bool) :=
  do t <- t_run N M O (t_new O) (map bop_of os);
  do j <- find_leaf O (th t) (tdepth t) (troot t) k; do l <- of_opt (hl (th t) j); do c <- path_ok N M O t (tdepth t) (troot t) k;
  Ok (slot_kind l k, c).
Example C04_exact_odd_ex : let O := pbp_ops nat 3 in let os := up 1 25 ++ [OpErase _ 250%Z] in
  abs_path 5 3 O os 250%Z = Ok (Some true, false) /\ t_run 5 3 O (t_new O) (map bop_of (os ++ [OpErase _ 250%Z])) = UB /\
  abs_path 6 3 O os 250%Z = Ok (Some true, true) /\ (do t <- t_run 6 3 O (t_new O) (map bop_of (os ++ [OpErase _ 250%Z])); t_lookup O t 240%Z) = Ok None.
Proof. cbv zeta. splits; vm_compute; reflexivity. Qed.
Example C93_bptree_ex : let O := bp_ops nat 4 in
  abs_after O (abs_hist ++ [OpErase _ 70; OpErase _ 60])%Z = Ok [10; 20; 30; 40]%Z /\ abs_after O (up 1 8 ++ [OpErase _ 85%Z]) = UB.
Proof. cbv zeta. splits; vm_compute; reflexivity. Qed.
Example C93_hpbptree_ex : let O := hpbp_ops nat 4 in
  abs_after O (abs_hist ++ [OpErase _ 70; OpErase _ 60])%Z = Ok [10; 20; 30; 40]%Z /\ abs_after O (up 1 8 ++ [OpErase _ 85%Z]) = UB.
Proof. cbv zeta. splits; vm_compute; reflexivity. Qed.
Example C93_after_ex : exists m : amap nat, after m_empty (abs_hist ++ [OpErase _ 70%Z]) m /\ m 60%Z = None /\ m 50%Z = Some 5.
Proof.
  exists (m_del (m_run abs_hist) 60%Z). split; [|split; reflexivity]. unfold abs_hist, up. cbn [seq map app Z.of_nat Z.mul Pos.of_succ_nat].
  repeat apply after_ins. apply after_del; [discriminate|]. apply after_take with 60%Z; [reflexivity| |apply after_nil; reflexivity].
  split; [discriminate|]. split; [reflexivity|]. intros q H _. unfold m_del, m_put, m_empty in H.
  repeat match type of H with context [(?a =? ?b)%Z] => destruct (Z.eqb_spec a b) in H; try lia end; congruence.
Qed.
