(** C49, C92: the range scans of BitPBPTree and BitHPBPTree. *)
From Verif Require Import Base MapSpec RankModel BitmapModel BTreeModel BTreeSpec FLeafModel BitTreeModel BitHModel BitRProofs PropUnsorted.
Open Scope nat_scope.

(** ** BitPBPTree *)
(** In a tree of any size and shape: each entry reported lies in the range and comes from a slot that is not in use. *)
Theorem C49_dead_partial : forall V t N M (tr : btree V) lo hi out, bt_range t N M tr lo hi = Ok out ->
  Forall (fun e => (lo <= fst e <= hi)%Z /\ exists j l i, hl (bth tr) j = Some l /\ i < M /\
    bm_test M (fb l) i = Ok false /\ aget (fk l) i = Ok (fst e) /\ aget (fv l) i = Ok (snd e)) out.
Proof.
  intros V t N M tr lo hi out E. apply (@tree_dead V t N M (bit_ops V t M) eq_refl) in E.
  eapply Forall_impl; [|exact E]. intros e (H1 & j & l & Hl & i & H2). split; auto. exists j, l, i. tauto.
Qed.
Print Assumptions C49_dead_partial.

(** Up to M keys, any range: nothing is reported if there are exactly M, else an unwritten slot is read.
    So the scan is right only if the leaf is full and no key lies in the range. *)
Theorem C49_one_leaf_partial : forall V t N M (os : list (Z * V)) lo hi, 1 <= M -> length (nodup Z.eq_dec (map fst os)) <= M ->
  exists tr, bt_run t N M (bt_new V t M) os = Ok tr /\
    bt_range t N M tr lo hi = if length (nodup Z.eq_dec (map fst os)) =? M then Ok [] else UB.
Proof. intros V t N M os lo hi HM HL. exact (@one_leaf_range V t N M HM (bit_ops V t M) eq_refl eq_refl (fun l k v l' H => H) os lo hi HL). Qed.
Print Assumptions C49_one_leaf_partial.

Example C49_one_leaf_ex :
  (do tr <- bt_run i32 4 4 (bt_new Z i32 4) [(10, 1); (-20, 2); (30, 3); (10, 4)]%Z; bt_range i32 4 4 tr 0 100) = UB /\
  (do tr <- bt_run i32 4 4 (bt_new Z i32 4) [(10, 1); (-20, 2); (30, 3); (10, 4); (7, 5)]%Z; bt_range i32 4 4 tr 0 100) = Ok [] /\
  (do tr <- bt_run i32 4 2 (bt_new Z i32 2) [(40, 41); (50, 51); (60, 61); (50, 99)]%Z; bt_range i32 4 2 tr 0 100) = Ok [(50, 51)]%Z.
Proof. vm_compute. auto. Qed.

(** ** BitHPBPTree *)
(** After a split both leaves hold all slots, so the scan reports an entry with the value it no longer has, and misses others. *)
Theorem C92_refuted : exists os : list (Z * Z), let tr := bh_run i32 4 2 (bh_new Z i32 2) os in
  m_run (map (fun e => OpInsert (fst e) (snd e)) os) 50%Z = Some 99%Z /\
  m_run (map (fun e => OpInsert (fst e) (snd e)) os) 60%Z = Some 61%Z /\
  (do t <- tr; do a <- bh_lookup i32 4 2 t 50%Z; do b <- bh_lookup i32 4 2 t 60%Z; Ok (a, b)) = Ok (Some 99%Z, Some 61%Z) /\
  (do t <- tr; bh_range i32 4 2 t 0 100) = Ok [(50, 51)]%Z.
Proof. exists [(40, 41); (50, 51); (60, 61); (50, 99)]%Z. vm_compute. auto. Qed.
Print Assumptions C92_refuted.

Theorem C92_dead_partial : forall V t N M (tr : btree V) lo hi out, bh_range t N M tr lo hi = Ok out ->
  Forall (fun e => (lo <= fst e <= hi)%Z /\ exists j l i, hl (bth tr) j = Some l /\ i < M /\
    bm_test M (fb l) i = Ok false /\ aget (fk l) i = Ok (fst e) /\ aget (fv l) i = Ok (snd e)) out.
Proof.
  intros V t N M tr lo hi out E. apply (@tree_dead V t N M (bh_ops V t M) eq_refl) in E.
  eapply Forall_impl; [|exact E]. intros e (H1 & j & l & Hl & i & H2). split; auto. exists j, l, i. tauto.
Qed.
Print Assumptions C92_dead_partial.

Theorem C92_one_leaf_partial : forall V t N M (os : list (Z * V)) lo hi, 1 <= M -> length (nodup Z.eq_dec (map fst os)) <= M ->
  exists tr, bh_run t N M (bh_new V t M) os = Ok tr /\
    bh_range t N M tr lo hi = if length (nodup Z.eq_dec (map fst os)) =? M then Ok [] else UB.
Proof. intros V t N M os lo hi HM HL. exact (@one_leaf_range V t N M HM (bh_ops V t M) eq_refl eq_refl (@bh_ins_done V t M) os lo hi HL). Qed.
Print Assumptions C92_one_leaf_partial.

Example C92_one_leaf_ex :
  (do tr <- bh_run i32 4 4 (bh_new Z i32 4) [(10, 1); (-20, 2); (30, 3); (10, 4)]%Z; bh_range i32 4 4 tr 0 100) = UB /\
  (do tr <- bh_run i32 4 4 (bh_new Z i32 4) [(10, 1); (-20, 2); (30, 3); (10, 4); (7, 5)]%Z; bh_range i32 4 4 tr 0 100) = Ok [] /\
  (do tr <- bh_run i32 4 4 (bh_new Z i32 4) [(10, 11); (20, 21); (30, 31); (40, 41); (50, 51)]%Z; bh_range i32 4 4 tr 0 100) = Ok [(30, 31); (40, 41); (20, 21)]%Z.
Proof. vm_compute. auto. Qed.
