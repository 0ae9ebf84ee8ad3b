(** C76: power failure during a leaf erase.  [firstn n p] are the stores that became durable. *)
From Verif Require Import Base RankModel BitmapModel BTreeModel SearchModel SLeafModel ULeafModel FLeafModel CrashModel CrashSpec
  CrashProofs CrashEProofs PropUnsorted PropCrash.
Open Scope nat_scope.

(** BitPBPTree: one store; the leaf is as before or without the key, and stays a leaf for which lookup
    and scan agree with the slots (C17_bit_lookup, C17_bit_scan). *)
Theorem C76_bit_atomic : forall V M (l : bleaf V) key v,
  b_reach M l -> has (b_slots M l) key v ->
  exists pos, bl_pos M l key = Ok pos /\ pos < M /\ forall n, exists l',
    exec (@b_step V M) l (firstn n (bl_erase_stores V pos)) = Ok l' /\ b_reach M l' /\
    (same (b_slots M l) (b_slots M l') \/ minus (b_slots M l) key (b_slots M l')) /\
    (length (bl_erase_stores V pos) <= n -> bl_erase M l key = Ok (true, l') /\ minus (b_slots M l) key (b_slots M l')).
Proof. exact b_erase_atomic. Qed.
Print Assumptions C76_bit_atomic.

(** FPTree: the same (C19_agree_partial for lookup and scan of the leaf left behind). *)
Theorem C76_fptree_atomic : forall V t fp junk M (l : fleaf V) key v,
  f_reach t fp junk M l -> has (f_slots M l) key v ->
  exists pos, fl_pos fp M l key = Ok pos /\ pos < M /\ forall n, exists l',
    exec (@f_step V M) l (firstn n (bl_erase_stores V pos)) = Ok l' /\ f_reach t fp junk M l' /\
    (same (f_slots M l) (f_slots M l') \/ minus (f_slots M l) key (f_slots M l')) /\
    (length (bl_erase_stores V pos) <= n -> fl_erase fp M l key = Ok (true, l') /\ minus (f_slots M l) key (f_slots M l')).
Proof. exact f_erase_atomic. Qed.
Print Assumptions C76_fptree_atomic.

(** Both keys of the leaf of C17_ex, erasing 5: before and after the only store. *)
Example C76_ex :
  (do l <- bl_insert 3 (bl_new Z 3) 7%Z 70%Z; do l <- bl_insert 3 l 5%Z 50%Z;
   do pos <- bl_pos 3 l 5%Z;
   do a <- (do x <- exec (@b_step Z 3) l (firstn 0 (bl_erase_stores Z pos)); bl_scan 3 x);
   do b <- (do x <- exec (@b_step Z 3) l (firstn 1 (bl_erase_stores Z pos)); bl_scan 3 x); Ok (pos, a, b))
  = Ok (1, [(7, 70); (5, 50)]%Z, [(7, 70)]%Z).
Proof. vm_compute. reflexivity. Qed.
Example C76_fptree_ex :
  (do r <- fl_insert i32 fpHash (fun _ => 0%Z) 3 (fl_new Z (fun _ => 0%Z) 3) 7%Z 70%Z;
   match r with
   | LDone l =>
     do pos <- fl_pos fpHash 3 l 7%Z;
     do x <- exec (@f_step Z 3) l (firstn 1 (bl_erase_stores Z pos));
     do a <- fl_lookup fpHash 3 l 7%Z; do b <- fl_lookup fpHash 3 x 7%Z; do c <- fl_scan 3 x; Ok (a, b, c)
   | LSplit _ _ _ => UB
   end) = Ok (Some 70%Z, None, []).
Proof. vm_compute. reflexivity. Qed.

(** PBPTree: keys 10, 20, 30; erasing 10 and failing after the third store leaves the keys 20, 30, 30
    with the values of 20, 20, 30; lookup of 30 answers the value of 20 and scan reports 30 twice. *)
Definition sorted3 : sleaf Z := SLeaf 3 [Some 10; Some 20; Some 30; None]%Z [Some 11; Some 21; Some 31; None]%Z.
Lemma sorted3_ok : s_ok 4 sorted3.
Proof.
  unfold s_ok, sorted3. cbn [sn sk sv]. splits; auto; try lia.
  - intros i Hi. destruct i as [|[|[|i]]]; [| | |lia]; vm_compute; eauto.
  - intros i j k k' H Ei Ej. destruct j as [|[|[|j]]]; [lia| | |lia]; destruct i as [|[|i]]; try lia;
      vm_compute in Ei, Ej; injection Ei as <-; injection Ej as <-; lia.
Qed.
Theorem C76_sorted_refuted : exists (l l' : sleaf Z) pos key n,
  s_ok 4 l /\ bsearch_pos false (sk l) (sn l) key = Ok pos /\ has (s_slots l) key 11%Z /\ has (s_slots l) 30%Z 31%Z /\
  exec (@s_step Z) l (firstn n (sl_erase_stores l pos)) = Ok l' /\
  sl_lookup (bsearch_pos false) l 30%Z = Ok (Some 31%Z) /\
  sl_lookup (bsearch_pos false) l' 30%Z = Ok (Some 21%Z) /\
  sl_scan l' = Ok [(20, 21); (30, 21); (30, 31)]%Z.
Proof.
  eexists sorted3, _, 0, 10%Z, 3. split; [exact sorted3_ok|].
  splits; try (vm_compute; reflexivity); [exists 0|exists 2]; reflexivity.
Qed.
Print Assumptions C76_sorted_refuted.

(** UnsortedPBPTree: the counter is decremented first; failing after that store loses the entry of the
    last slot (30) while the erased one (10) is still there, and failing one store later pairs key 30
    with the value of 10. *)
Theorem C76_unsorted_refuted : exists (l l1 l2 : sleaf Z) pos key,
  s_ok 4 l /\ ul_pos (sk l) (sn l) key = Ok pos /\
  sl_scan l = Ok [(10, 11); (20, 21); (30, 31)]%Z /\ key = 10%Z /\
  exec (@s_step Z) l (firstn 1 (ul_erase_stores l pos)) = Ok l1 /\
  sl_scan l1 = Ok [(10, 11); (20, 21)]%Z /\ sl_lookup ul_pos l1 30%Z = Ok None /\
  exec (@s_step Z) l (firstn 2 (ul_erase_stores l pos)) = Ok l2 /\
  sl_scan l2 = Ok [(30, 11); (20, 21)]%Z /\ sl_lookup ul_pos l2 30%Z = Ok (Some 11%Z).
Proof.
  eexists sorted3, _, _, 0, 10%Z. split; [exact sorted3_ok|]. splits; vm_compute; reflexivity.
Qed.
Print Assumptions C76_unsorted_refuted.

(** Missing: that no key is reported twice or with the value of its left neighbour.  What holds at every
    failure point: no other entry is lost, no key appears that was not there, the slots in front of the
    erased one are untouched; erasing the last entry is atomic. *)
Theorem C76_sorted_partial : forall V M (l : sleaf V) pos key v,
  s_ok M l -> s_slots l pos = Some (key, v) -> forall n, exists l',
  exec (@s_step V) l (firstn n (sl_erase_stores l pos)) = Ok l' /\
  (forall k w, k <> key -> has (s_slots l) k w -> has (s_slots l') k w) /\
  (forall k w, has (s_slots l') k w -> exists w', has (s_slots l) k w') /\
  (forall i, i < pos -> s_slots l' i = s_slots l i) /\
  (pos = sn l - 1 -> same (s_slots l) (s_slots l') \/ minus (s_slots l) key (s_slots l')) /\
  (length (sl_erase_stores l pos) <= n -> s_ok M l' /\ minus (s_slots l) key (s_slots l')).
Proof. exact s_erase_prefix. Qed.
Print Assumptions C76_sorted_partial.
(** The stores are those of eraseFromLeafNode as modelled for the tree. *)
Theorem C76_sorted_stores : forall V lpos (l : sleaf V) pos key,
  lpos (sk l) (sn l) key = Ok pos -> aget (sk l) pos = Ok key -> 0 < sn l ->
  sl_erase lpos l key = (do l' <- exec (@s_step V) l (sl_erase_stores l pos); Ok (true, l')).
Proof. exact sl_stores_erase. Qed.
Print Assumptions C76_sorted_stores.

(** Missing: the entries of the erased and of the last slot when they differ. *)
Theorem C76_unsorted_partial : forall V t M (l : sleaf V) pos key v,
  u_reach t M l -> s_slots l pos = Some (key, v) -> forall n, exists l',
  exec (@s_step V) l (firstn n (ul_erase_stores l pos)) = Ok l' /\
  (forall i, i <> pos -> i <> sn l - 1 -> s_slots l' i = s_slots l i) /\
  (pos = sn l - 1 -> same (s_slots l) (s_slots l') \/ minus (s_slots l) key (s_slots l')) /\
  (length (ul_erase_stores l pos) <= n -> minus (s_slots l) key (s_slots l')).
Proof. intros V t M l pos key v R. exact (u_erase_prefix (u_reach_wf R)). Qed.
Print Assumptions C76_unsorted_partial.
Theorem C76_unsorted_stores : forall V (l : sleaf V) pos key,
  ul_pos (sk l) (sn l) key = Ok pos -> aget (sk l) pos = Ok key -> 0 < sn l ->
  (exists v, aget (sv l) (sn l - 1) = Ok v) ->
  ul_erase l key = (do l' <- exec (@s_step V) l (ul_erase_stores l pos); Ok (true, l')).
Proof. exact ul_stores_erase. Qed.
Print Assumptions C76_unsorted_stores.

(** Erasing the middle key of three, all stores durable; erasing the last one, one of one store durable. *)
Example C76_sorted_ex : s_slots sorted3 1 = Some (20, 21)%Z /\ bsearch_pos false (sk sorted3) (sn sorted3) 20%Z = Ok 1 /\
  (do l <- exec (@s_step Z) sorted3 (sl_erase_stores sorted3 1); sl_scan l) = Ok [(10, 11); (30, 31)]%Z /\
  (do l <- exec (@s_step Z) sorted3 (firstn 1 (sl_erase_stores sorted3 2)); sl_scan l) = Ok [(10, 11); (20, 21)]%Z /\
  (do l <- exec (@s_step Z) sorted3 (ul_erase_stores sorted3 0); sl_scan l) = Ok [(30, 31); (20, 21)]%Z.
Proof. splits; vm_compute; reflexivity. Qed.
Example C76_unsorted_ex : exists l, u_reach i32 4 l /\ s_slots l 0 = Some (9, 90)%Z /\ sn l = 2 /\
  (do x <- exec (@s_step Z) l (firstn 3 (ul_erase_stores l 0)); sl_scan x) = Ok [(5, 50)]%Z.
Proof.
  set (l1 := match ul_insert i32 4 (sl_new Z 4) 9%Z 90%Z with Ok (LDone l) => l | _ => sl_new Z 4 end).
  set (l2 := match ul_insert i32 4 l1 5%Z 50%Z with Ok (LDone l) => l | _ => sl_new Z 4 end).
  exists l2. split; [|splits; vm_compute; reflexivity].
  apply (@UR_ins Z i32 4 l1 5%Z 50%Z); [|vm_compute; reflexivity].
  apply (@UR_ins Z i32 4 (sl_new Z 4) 9%Z 90%Z); [apply UR_new|vm_compute; reflexivity].
Qed.
