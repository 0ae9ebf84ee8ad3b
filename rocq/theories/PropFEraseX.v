(** C15: the condition under which erase of FPTree is right is exact. *)
From Verif Require Import Base MapSpec RankModel BitmapModel BTreeModel BTreeSpec SLeafModel FLeafModel EraseSpec EraseG FEraseX FSlotX PropUnsorted PropFPTree.
Open Scope nat_scope.

(** After any history whose erases met the condition, and for any key, stored or not: the condition is decided
    (the slots 0 it compares have been written), and the erase ends and reports whether the key was stored.  If
    the condition holds, the tree is then the map without the key; if it does not hold, some other stored key is
    no longer found.
    Missing: the largest key of the type; odd [N] and [N] = 4 (branch nodes, see C09). *)
Theorem C15_exact_partial : forall V t fp junk N M (os : list (mop V)) (O := fp_ops V t fp junk M),
  2 <= M -> (N.of_nat M < W)%N -> (1 <= kt_bits t <= 64)%Z -> 6 <= N -> Nat.even N = true ->
  Forall (op_in (fun k => kt_in t k /\ (k < kt_max t)%Z)) os -> fine N M O (slots_ok M) (t_new O) (map bop_of os) = true ->
  exists tr, t_run N M O (t_new O) (map bop_of os) = Ok tr /\
    forall k, exists c tr' b, leaf_guard M O (slots_ok M) (th tr) (tdepth tr) (troot tr) k = Ok c /\
      t_erase N M O tr k = Ok (tr', b) /\ (b = true <-> m_run os k <> None) /\
      if c then forall x, t_lookup O tr' x = Ok (m_del (m_run os) k x)
      else exists x, x <> k /\ m_run os x <> None /\ t_lookup O tr' x = Ok None.
Proof. intros V t fp junk N M os O HM HW Ht HN HE. exact (@fp_exact_dec V t fp junk N M HM HW Ht (Nat.le_trans _ _ _ (le_S _ _ (le_n 5)) HN) os HN HE). Qed.
Print Assumptions C15_exact_partial.

(** Both cases occur in one tree of three levels: 20 can be erased, the erase of 70 loses 50. *)
Definition c15_os : list (mop Z) :=
  ins_of (flat_map (fun i => map (fun j => 50 * Z.of_nat i + j) [40; 30; 20; 10; 50])%Z (seq 0 9)) ++ er_of [40; 140; 240]%Z ++ ins_of [35; 135; 235]%Z.
Example C15_exact_ex : let O := fp_ops Z i32 fpHash (fun _ => 0%Z) 4 in
  Forall (op_in (fun k => kt_in i32 k /\ (k < kt_max i32)%Z)) c15_os /\ fine 6 4 O (slots_ok 4) (t_new O) (map bop_of c15_os) = true /\
  (do tr <- t_run 6 4 O (t_new O) (map bop_of c15_os);
   do a <- leaf_guard 4 O (slots_ok 4) (th tr) (tdepth tr) (troot tr) 20%Z;
   do b <- leaf_guard 4 O (slots_ok 4) (th tr) (tdepth tr) (troot tr) 70%Z;
   do r <- t_erase 6 4 O tr 70%Z; do x <- t_lookup O tr 50%Z; do y <- t_lookup O (fst r) 50%Z; do z <- t_lookup O (fst r) 90%Z;
   Ok (tdepth tr, a, b, snd r, x, y, z)) = Ok (2, true, false, true, Some 51%Z, None, Some 91%Z).
Proof.
  cbv zeta. split; [|repeat split; vm_compute; reflexivity].
  apply Forall_forall. intros o Ho.
  assert (H : forallb (fun o => match o with OpInsert k _ | OpErase _ k => (0 <=? k) && (k <=? 1000) end)%Z c15_os = true) by (vm_compute; reflexivity).
  rewrite forallb_forall in H. specialize (H o Ho).
  destruct o as [k v|k]; cbv beta iota in H; apply andb_true_iff in H as [H1 H2]; apply Z.leb_le in H1, H2; unfold op_in, kt_in, kt_max; cbn; lia.
Qed.
