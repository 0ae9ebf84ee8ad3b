(** Erases of any keys in UnsortedPBPTree. *)
From Verif Require Import Base MapSpec RankModel BTreeModel BTreeSpec EraseSpec PathSpec EraseG SLeafModel ULeafModel AbsentSpec UAbsentProofs PropPBPTree PropUnsorted.
Open Scope nat_scope.

(** * C94: what an erase of any key does, after any history none of whose erases freed a linked leaf (C13).
    The slot behind the last entry decides about a key that is not stored: nothing goes, the entry in the last slot of the leaf
    goes, or the behaviour is undefined.  The two conditions of C13 decide about the rest, as for a stored key. *)
Theorem C94_unsorted_erase_any : forall V ty N M (os : list (mop V)) (O := un_ops V ty M),
  2 <= M -> (1 <= kt_bits ty <= 64)%Z -> 5 <= N ->
  Forall (op_in (kt_in ty)) os -> unspoilt N M O (t_new O) (map bop_of os) = true ->
  t_run N M O (t_new O) (map bop_of os) = UB \/
  exists t m, t_run N M O (t_new O) (map bop_of os) = Ok t /\ loses m_empty os m /\ (forall x, t_lookup O t x = Ok (m x)) /\
  forall k, exists j l, find_leaf O (th t) (tdepth t) (troot t) k = Ok j /\ hl (th t) j = Some l /\
  match ukind l m k with
  | None => t_erase N M O t k = UB
  | Some r => exists g c m', leaf_guard M O (rm_ok M O) (th t) (tdepth t) (troot t) k = Ok g /\ path_ok N M O t (tdepth t) (troot t) k = Ok c /\
      (Nat.even N = true -> c = true) /\ takes l m k r m' /\
      if c then exists t', t_erase N M O t k = Ok (t', r) /\
                  if g then forall x, t_lookup O t' x = Ok (m' x) else exists y, m' y <> None /\ t_lookup O t' y = UB
      else t_erase N M O t k = UB
  end.
Proof. intros V ty N M os O HM Ht HN. exact (@un_any V ty N M HM Ht HN os). Qed.
Print Assumptions C94_unsorted_erase_any.

(** Erases of stored keys only leave the map of C01. *)
Theorem C94_loses_stored : forall V (os : list (mop V)) m, hist_ok m_empty os -> loses m_empty os m -> forall x, m x = m_run os x.
Proof. intros V os m H A. exact (loses_hist A H). Qed.
Print Assumptions C94_loses_stored.

(** Erase of a key that is not stored takes another: 50 was erased and is still in the slot behind 20.  The second erase of 50 takes 20,
    the last key of the leaf, and not 40, the largest below 50. *)
Definition ua_hist : list (mop nat) := [OpInsert 10%Z 1; OpInsert 40%Z 4; OpInsert 20%Z 2; OpInsert 50%Z 5; OpErase _ 50%Z].
Definition ua_scan (N M : nat) (os : list (mop nat)) : res (list Z) :=
  let O := un_ops nat i32 M in do t <- t_run N M O (t_new O) (map bop_of os); do o <- t_scan O t; Ok (map fst o).
Definition ua_kind (N M : nat) (os : list (mop nat)) (k : Z) : res (nat * option bool * res Z) :=
  let O := un_ops nat i32 M in
  do t <- t_run N M O (t_new O) (map bop_of os);
  do j <- find_leaf O (th t) (tdepth t) (troot t) k; do l <- of_opt (hl (th t) j); Ok (tdepth t, uslot_kind l k, ulast l).
Definition ua_conds (N M : nat) (os : list (mop nat)) (k : Z) : res (bool * bool) :=
  let O := un_ops nat i32 M in
  do t <- t_run N M O (t_new O) (map bop_of os);
  do g <- leaf_guard M O (rm_ok M O) (th t) (tdepth t) (troot t) k; do c <- path_ok N M O t (tdepth t) (troot t) k; Ok (g, c).
Example C94_take_ex : ua_scan 6 4 ua_hist = Ok [10; 40; 20]%Z /\ ua_kind 6 4 ua_hist 50%Z = Ok (0, Some true, Ok 20%Z) /\
  ua_scan 6 4 (ua_hist ++ [OpErase _ 50%Z]) = Ok [10; 40]%Z /\ ua_kind 6 4 ua_hist 45%Z = Ok (0, Some false, Ok 20%Z) /\
  unspoilt 6 4 (un_ops nat i32 4) (t_new (un_ops nat i32 4)) (map bop_of (ua_hist ++ [OpErase _ 50%Z])) = true.
Proof. splits; vm_compute; reflexivity. Qed.
(** In trees of four leaves: all outcomes.  15 was erased from the first leaf; its second erase takes 20, the leaf is merged with
    the second one and the third one is freed although it is linked: 50 cannot be read.  Behind 90 no slot was ever written. *)
Example C94_lose_ex : let os := up 1 9 ++ [OpInsert 15%Z 0; OpErase _ 15%Z] in let O := un_ops nat i32 4 in
  unspoilt 6 4 O (t_new O) (map bop_of os) = true /\ ua_kind 6 4 os 15%Z = Ok (1, Some true, Ok 20%Z) /\ ua_conds 6 4 os 15%Z = Ok (false, true) /\
  (do t <- t_run 6 4 O (t_new O) (map bop_of os); do r <- t_erase 6 4 O t 15%Z; t_lookup O (fst r) 50%Z) = UB /\
  (do t <- t_run 6 4 O (t_new O) (map bop_of os); t_lookup O t 50%Z) = Ok (Some 5) /\
  ua_kind 6 4 os 95%Z = Ok (1, None, Ok 90%Z) /\ ua_scan 6 4 (os ++ [OpErase _ 95%Z]) = UB /\
  ua_kind 6 4 os 99%Z = Ok (1, None, Ok 90%Z) /\ ua_kind 6 4 os 55%Z = Ok (1, Some false, Ok 60%Z) /\
  ua_scan 6 4 (os ++ [OpErase _ 55%Z]) = Ok [10; 20; 30; 40; 50; 60; 70; 80; 90]%Z.
Proof. cbv zeta. splits; vm_compute; reflexivity. Qed.
Example C94_hyp_ex : Forall (op_in (kt_in i32)) ua_hist.
Proof. unfold ua_hist. repeat constructor; cbn; lia. Qed.
Example C94_loses_ex : exists m : amap nat, loses m_empty (ua_hist ++ [OpErase _ 50%Z]) m /\ m 20%Z = None /\ m 40%Z = Some 4.
Proof.
  exists (m_del (m_run ua_hist) 20%Z). split; [|split; reflexivity]. unfold ua_hist. cbn [app].
  repeat apply loses_ins. apply loses_del; [discriminate|]. apply loses_take with 20%Z; [reflexivity|discriminate|apply loses_nil; reflexivity].
Qed.
