(** C13, C15 with [N] from 5 on, odd [N] included: the condition on branch nodes is exact too. *)
From Verif Require Import Base MapSpec RankModel BitmapModel BTreeModel BTreeSpec SLeafModel SLeafProofs ULeafModel FLeafModel EraseSpec PathSpec EraseG
  PathX FSlotX PropPBPTree PropUnsorted PropFPTree PropFEraseX.
Open Scope nat_scope.

(** After any history whose erases met both conditions, and for any stored key: both conditions are decided for the
    erase of that key.  If the one on branch nodes does not hold, the erase is undefined.  If it holds, the erase
    returns true; then the tree is the map without the key when the condition on leaves holds too, and looking up some
    other stored key is undefined when it does not.
    Missing: [N] = 3 and 4. *)
Theorem C13_path_exact_partial : forall V t N M (os : list (mop V)) (O := un_ops V t M),
  2 <= M -> (1 <= kt_bits t <= 64)%Z -> 5 <= N ->
  hist_ok m_empty os -> Forall (op_in (kt_in t)) os ->
  fine N M O (rm_ok M O) (t_new O) (map bop_of os) = true -> path_fine N M O (t_new O) (map bop_of os) = true ->
  exists tr, t_run N M O (t_new O) (map bop_of os) = Ok tr /\
    forall k, m_run os k <> None ->
      exists g c, leaf_guard M O (rm_ok M O) (th tr) (tdepth tr) (troot tr) k = Ok g /\
        path_ok N M O tr (tdepth tr) (troot tr) k = Ok c /\
      if c then exists tr', t_erase N M O tr k = Ok (tr', true) /\
        if g then forall x, t_lookup O tr' x = Ok (m_del (m_run os) k x)
        else exists x, x <> k /\ m_run os x <> None /\ t_lookup O tr' x = UB
      else t_erase N M O tr k = UB.
Proof. intros V t N M os O HM Ht HN. exact (@un_path_exact V t N M HM Ht HN os). Qed.
Print Assumptions C13_path_exact_partial.

(** The same for FPTree and any key, stored or not; here the erase that does not meet the condition on leaves makes some
    other stored key unfindable.
    Missing: [N] = 3 and 4; the largest key of the type. *)
Theorem C15_path_exact_partial : forall V t fp junk N M (os : list (mop V)) (O := fp_ops V t fp junk M),
  2 <= M -> (N.of_nat M < W)%N -> (1 <= kt_bits t <= 64)%Z -> 5 <= N ->
  Forall (op_in (fun k => kt_in t k /\ (k < kt_max t)%Z)) os ->
  fine N M O (slots_ok M) (t_new O) (map bop_of os) = true -> path_fine N M O (t_new O) (map bop_of os) = true ->
  exists tr, t_run N M O (t_new O) (map bop_of os) = Ok tr /\
    forall k, exists g c, leaf_guard M O (slots_ok M) (th tr) (tdepth tr) (troot tr) k = Ok g /\
        path_ok N M O tr (tdepth tr) (troot tr) k = Ok c /\
      if c then exists tr' b, t_erase N M O tr k = Ok (tr', b) /\ (b = true <-> m_run os k <> None) /\
        if g then forall x, t_lookup O tr' x = Ok (m_del (m_run os) k x)
        else exists x, x <> k /\ m_run os x <> None /\ t_lookup O tr' x = Ok None
      else t_erase N M O tr k = UB.
Proof. intros V t fp junk N M os O HM HW Ht HN. exact (@fp_path_exact_dec V t fp junk N M HM HW Ht HN os). Qed.
Print Assumptions C15_path_exact_partial.

(** All four cases occur in one tree with N = 5: 110 can be erased, the erase of 90 makes the lookup of 130 undefined,
    the erases of 10 and of 30 are undefined. *)
Example C13_path_exact_ex : let O := un_ops Z i32 4 in let os := ins_of (rising 30) in
  let gs tr k := do g <- leaf_guard 4 O (rm_ok 4 O) (th tr) (tdepth tr) (troot tr) k; do c <- path_ok 5 4 O tr (tdepth tr) (troot tr) k; Ok (g, c) in
  hist_ok m_empty os /\ Forall (op_in (kt_in i32)) os /\
  fine 5 4 O (rm_ok 4 O) (t_new O) (map bop_of os) = true /\ path_fine 5 4 O (t_new O) (map bop_of os) = true /\
  (do tr <- t_run 5 4 O (t_new O) (map bop_of os); do a <- gs tr 110%Z; do b <- gs tr 90%Z; do c <- gs tr 10%Z; do d <- gs tr 30%Z;
   do r <- t_erase 5 4 O tr 110%Z; do x <- t_lookup O (fst r) 110%Z; do y <- t_lookup O (fst r) 120%Z; Ok (tdepth tr, a, b, c, d, x, y)) =
    Ok (2, (true, true), (false, true), (false, false), (true, false), None, Some 121%Z) /\
  (do tr <- t_run 5 4 O (t_new O) (map bop_of os); do r <- t_erase 5 4 O tr 90%Z; Ok (snd r)) = Ok true /\
  (do tr <- t_run 5 4 O (t_new O) (map bop_of os); do r <- t_erase 5 4 O tr 90%Z; t_lookup O (fst r) 130%Z) = UB /\
  (do tr <- t_run 5 4 O (t_new O) (map bop_of os); t_erase 5 4 O tr 10%Z) = UB /\
  (do tr <- t_run 5 4 O (t_new O) (map bop_of os); t_erase 5 4 O tr 30%Z) = UB.
Proof.
  cbv zeta. split; [vm_compute; repeat split; discriminate|]. split; [apply ops_in_i32; vm_compute; reflexivity|].
  repeat split; vm_compute; reflexivity.
Qed.

(** FPTree with N = 5: 10 can be erased, the erase of 70 loses 50, the erase of 80 is undefined. *)
Example C15_path_exact_ex : let O := fp_ops Z i32 fpHash (fun _ => 0%Z) 4 in
  let gs tr k := do g <- leaf_guard 4 O (slots_ok 4) (th tr) (tdepth tr) (troot tr) k; do c <- path_ok 5 4 O tr (tdepth tr) (troot tr) k; Ok (g, c) in
  Forall (op_in (fun k => kt_in i32 k /\ (k < kt_max i32)%Z)) c15_os /\
  fine 5 4 O (slots_ok 4) (t_new O) (map bop_of c15_os) = true /\ path_fine 5 4 O (t_new O) (map bop_of c15_os) = true /\
  (do tr <- t_run 5 4 O (t_new O) (map bop_of c15_os); do a <- gs tr 10%Z; do b <- gs tr 80%Z; do c <- gs tr 70%Z; do r7 <- t_erase 5 4 O tr 70%Z; do z <- t_lookup O (fst r7) 50%Z;
   do r <- t_erase 5 4 O tr 10%Z; do x <- t_lookup O (fst r) 10%Z; do y <- t_lookup O (fst r) 20%Z; Ok (tdepth tr, a, b, c, x, y, snd r7, z)) =
    Ok (2, (true, true), (true, false), (false, true), None, Some 21%Z, true, None) /\
  (do tr <- t_run 5 4 O (t_new O) (map bop_of c15_os); t_erase 5 4 O tr 80%Z) = UB.
Proof. cbv zeta. split; [exact (proj1 C15_exact_ex)|]. repeat split; vm_compute; reflexivity. Qed.
