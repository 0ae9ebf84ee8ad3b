(** C13: the condition under which erase of UnsortedPBPTree is right is exact. *)
From Verif Require Import Base MapSpec RankModel BTreeModel BTreeSpec SLeafModel ULeafModel EraseSpec EraseG EraseX PropUnsorted.
Open Scope nat_scope.

(** After any history whose erases met the condition, for every stored key the condition is decided in the tree
    as it is.  If it holds, the erase is right; if it does not, the erase reports success and yet the lookup of
    some other stored key reads a freed leaf.
    Missing: odd [N] and [N] = 4 (branch nodes, see C09); erases of absent keys. *)
Theorem C13_exact_partial : forall V t N M (os : list (mop V)) (O := un_ops V t M),
  2 <= M -> (1 <= kt_bits t <= 64)%Z -> 6 <= N -> Nat.even N = true ->
  hist_ok m_empty os -> Forall (op_in (kt_in t)) os -> fine N M O (rm_ok M O) (t_new O) (map bop_of os) = true ->
  exists tr, t_run N M O (t_new O) (map bop_of os) = Ok tr /\
    forall k, m_run os k <> None -> exists b tr',
      leaf_guard M O (rm_ok M O) (th tr) (tdepth tr) (troot tr) k = Ok b /\ t_erase N M O tr k = Ok (tr', true) /\
      if b then forall x, t_lookup O tr' x = Ok (m_del (m_run os) k x)
      else exists x, x <> k /\ m_run os x <> None /\ t_lookup O tr' x = UB.
Proof. intros V t N M os O HM Ht HN HE. exact (@un_exact V t N M HM Ht HN HE os). Qed.
Print Assumptions C13_exact_partial.

(** Both cases occur in one tree: 150 can be erased, 10 cannot. *)
Example C13_exact_ex : let O := un_ops Z i32 4 in let os := ins_of (rising 15) ++ er_of [150]%Z in
  hist_ok m_empty os /\ Forall (op_in (kt_in i32)) os /\ fine 6 4 O (rm_ok 4 O) (t_new O) (map bop_of os) = true /\
  (do tr <- t_run 6 4 O (t_new O) (map bop_of os);
   do a <- leaf_guard 4 O (rm_ok 4 O) (th tr) (tdepth tr) (troot tr) 140%Z;
   do b <- leaf_guard 4 O (rm_ok 4 O) (th tr) (tdepth tr) (troot tr) 10%Z;
   do r <- t_erase 6 4 O tr 140%Z; do x <- t_lookup O (fst r) 60%Z; Ok (tdepth tr, a, b, x)) = Ok (1, true, false, Some 61%Z) /\
  (do tr <- t_run 6 4 O (t_new O) (map bop_of os); do r <- t_erase 6 4 O tr 10%Z; t_lookup O (fst r) 60%Z) = UB.
Proof.
  cbv zeta. split; [vm_compute; repeat split; discriminate|]. split; [apply ops_in_i32; vm_compute; reflexivity|].
  split; [vm_compute; reflexivity|]. split; vm_compute; reflexivity.
Qed.
