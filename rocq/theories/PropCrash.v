(** C17, C18, C19: power failure during a leaf insert.  [firstn n p] are the stores that became
    durable. *)
From Verif Require Import Base RankModel BitmapModel BTreeModel SearchModel SLeafModel ULeafModel FLeafModel CrashModel CrashSpec CrashProofs PropUnsorted.
Open Scope nat_scope.

(** * C17 *)
Theorem C17_bit_atomic : forall V M (l : bleaf V) key val,
  b_reach M l -> absent (b_slots M l) key -> (exists i, i < M /\ bm_test M (bb l) i = Ok false) ->
  exists p, bl_stores l key val = Ok p /\ forall n, exists l',
    exec (@b_step V M) l (firstn n p) = Ok l' /\
    (same (b_slots M l) (b_slots M l') \/ plus (b_slots M l) key val (b_slots M l')) /\
    (length p <= n -> plus (b_slots M l) key val (b_slots M l')).
Proof. exact b_atomic. Qed.
Print Assumptions C17_bit_atomic.

(** Lookup and scan of any such leaf, also one left by a failure, agree with the slots. *)
Theorem C17_bit_lookup : forall V M (l : bleaf V) k,
  b_reach M l -> exists r, bl_lookup M l k = Ok r /\ answers (b_slots M l) k r.
Proof. intros V M l k R. exact (b_lookup_ok k (b_reach_wf R)). Qed.
Print Assumptions C17_bit_lookup.
Theorem C17_bit_scan : forall V M (l : bleaf V),
  b_reach M l -> exists out, bl_scan M l = Ok out /\ reports (b_slots M l) out.
Proof. intros V M l R. exact (b_scan_ok (b_reach_wf R)). Qed.
Print Assumptions C17_bit_scan.

Theorem C17_unsorted_atomic : forall V t M (l : sleaf V) key val,
  u_reach t M l -> absent (s_slots l) key -> sn l < M -> forall n, exists l',
    exec (@s_step V) l (firstn n (ul_stores l key val)) = Ok l' /\
    (same (s_slots l) (s_slots l') \/ plus (s_slots l) key val (s_slots l')) /\
    (length (ul_stores l key val) <= n -> plus (s_slots l) key val (s_slots l')).
Proof. intros V t M. exact (@u_atomic V M t). Qed.
Print Assumptions C17_unsorted_atomic.
Theorem C17_unsorted_lookup : forall V t M (l : sleaf V) k,
  u_reach t M l -> exists r, sl_lookup ul_pos l k = Ok r /\ answers (s_slots l) k r.
Proof. intros V t M l k R. exact (u_lookup_ok k (u_reach_wf R)). Qed.
Print Assumptions C17_unsorted_lookup.
(** The stores are those of insertInLeafNodeAtLastPosition as modelled for the tree. *)
Theorem C17_unsorted_stores : forall V (l : sleaf V) key val,
  exec (@s_step V) l (ul_stores l key val) = ul_append l key val.
Proof. exact u_stores_append. Qed.
Print Assumptions C17_unsorted_stores.

Definition ex_bleaf : res (bleaf Z) :=
  do l <- bl_insert 3 (bl_new Z 3) 7%Z 70%Z; do l <- bl_insert 3 l 5%Z 50%Z; do r <- bl_erase 3 l 7%Z; Ok (snd r).
(** A leaf with key 5 in slot 1 and stale key 7 in slot 0; inserting 9 with a failure after each store. *)
Example C17_ex : exists l, ex_bleaf = Ok l /\ b_reach 3 l /\ absent (b_slots 3 l) 9%Z /\
  (exists i, i < 3 /\ bm_test 3 (bb l) i = Ok false) /\
  (do p <- bl_stores l 9%Z 90%Z;
   do a <- (do x <- exec (@b_step Z 3) l (firstn 2 p); bl_scan 3 x);
   do b <- (do x <- exec (@b_step Z 3) l (firstn 3 p); bl_scan 3 x); Ok (a, b)) = Ok ([(5, 50)], [(9, 90); (5, 50)])%Z.
Proof.
  set (l1 := match bl_insert 3 (bl_new Z 3) 7%Z 70%Z with Ok l => l | _ => bl_new Z 3 end).
  set (l2 := match bl_insert 3 l1 5%Z 50%Z with Ok l => l | _ => bl_new Z 3 end).
  set (l3 := match bl_erase 3 l2 7%Z with Ok r => snd r | _ => bl_new Z 3 end).
  exists l3. split; [reflexivity|].
  assert (R : b_reach 3 l3).
  { assert (R1 : b_reach 3 l1) by (apply (@BR_ins Z 3 (bl_new Z 3) 7%Z 70%Z); [apply BR_new|vm_compute; reflexivity]).
    assert (R2 : b_reach 3 l2) by (apply (@BR_ins Z 3 l1 5%Z 50%Z); [exact R1|vm_compute; reflexivity]).
    apply (@BR_del Z 3 l2 7%Z true); [exact R2|vm_compute; reflexivity]. }
  split; [exact R|]. split; [|split; [|vm_compute; reflexivity]].
  - intros v H. destruct (C17_bit_lookup 9%Z R) as (r & Er & A). apply A in H. subst r. vm_compute in Er. discriminate.
  - exists 0. split; [lia|vm_compute; reflexivity].
Qed.

(** * C18 *)

(** Keys 10, 20, 30; inserting 5 and failing after the third store: slot 2 holds key 20 with the value of 30,
    30 is lost (the counter still says three entries). *)
Theorem C18_refuted : exists (l : sleaf Z) key val n,
  s_ok 4 l /\ sn l < 4 /\ absent (s_slots l) key /\
  exists l', exec (@s_step Z) l (firstn n (sl_stores l 0 key val)) = Ok l' /\
    has (s_slots l) 30%Z 31%Z /\ ~ has (s_slots l') 30%Z 31%Z /\ ~ has (s_slots l') key val /\
    has (s_slots l') 20%Z 31%Z.
Proof.
  exists (SLeaf 3 [Some 10; Some 20; Some 30; None]%Z [Some 11; Some 21; Some 31; None]%Z), 5%Z, 6%Z, 3.
  assert (B : forall (s : slots Z) k v, (forall i, 3 <= i -> s i = None) ->
    has s k v -> s 0 = Some (k, v) \/ s 1 = Some (k, v) \/ s 2 = Some (k, v)).
  { intros s k v H (i & Hi). destruct i as [|[|[|i]]]; auto. rewrite H in Hi by lia. discriminate. }
  assert (O : forall (l : sleaf Z) i, sn l = 3 -> 3 <= i -> s_slots l i = None).
  { intros l i E H. unfold s_slots. rewrite E. destruct (Nat.ltb_spec i 3); [lia|reflexivity]. }
  split.
  { unfold s_ok. cbn [sn sk sv]. splits; auto; try lia.
    - intros i Hi. destruct i as [|[|[|i]]]; [| | |lia]; vm_compute; eauto.
    - intros i j k k' H Ei Ej. destruct j as [|[|[|j]]]; [lia| | |lia]; destruct i as [|[|i]]; try lia;
        vm_compute in Ei, Ej; injection Ei as <-; injection Ej as <-; lia. }
  split; [cbn [sn]; lia|]. split.
  { intros v H. apply B in H; [|intros; now apply O]. vm_compute in H. destruct H as [H|[H|H]]; discriminate. }
  eexists. split; [vm_compute; reflexivity|]. splits.
  - exists 2. reflexivity.
  - intros H. apply B in H; [|intros; now apply O]. vm_compute in H. destruct H as [H|[H|H]]; discriminate.
  - intros H. apply B in H; [|intros; now apply O]. vm_compute in H. destruct H as [H|[H|H]]; discriminate.
  - exists 2. reflexivity.
Qed.
Print Assumptions C18_refuted.

(** Missing: inserts that are not at the end of the leaf. *)
Theorem C18_append_partial : forall V M (l : sleaf V) key val,
  s_ok M l -> sn l < M -> (forall k v, has (s_slots l) k v -> (k < key)%Z) -> forall n, exists l',
    exec (@s_step V) l (firstn n (sl_stores l (sn l) key val)) = Ok l' /\ s_ok M l' /\
    (same (s_slots l) (s_slots l') \/ plus (s_slots l) key val (s_slots l')).
Proof. exact s_append. Qed.
Print Assumptions C18_append_partial.
(** Missing: the entries at and behind the insert position. *)
Theorem C18_below_partial : forall V M (l : sleaf V) pos key val n,
  s_ok M l -> sn l < M -> pos <= sn l ->
  exists l', exec (@s_step V) l (firstn n (sl_stores l pos key val)) = Ok l' /\
    forall i, i < pos -> s_slots l' i = s_slots l i.
Proof. exact s_below. Qed.
Print Assumptions C18_below_partial.
(** The stores are those of insertInLeafNodeAtPosition as modelled for the tree. *)
Theorem C18_stores : forall V (l : sleaf V) pos key val,
  exec (@s_step V) l (sl_stores l pos key val) = sl_insert_at l pos key val.
Proof. exact sl_stores_insert. Qed.
Print Assumptions C18_stores.
Example C18_ex : s_ok 2 (SLeaf 1 [Some 4; None] [Some 5; None])%Z.
Proof.
  unfold s_ok. cbn [sn sk sv]. splits; auto; try lia.
  intros i Hi. destruct i as [|i]; [|lia]. vm_compute. eauto.
Qed.

(** * C19 *)

(** The bit is set before the fingerprint is written: after a failure in between, scan reports key 9
    but lookup does not find it, and inserting 9 again makes scan report it twice. *)
Theorem C19_refuted : exists (l l' : fleaf Z) n,
  f_reach i32 fpHash (fun _ => 0%Z) 3 l /\
  (do p <- fl_stores fpHash l 9%Z 90%Z; exec (@f_step Z 3) l (firstn n p)) = Ok l' /\
  fl_scan 3 l' = Ok [(5, 50); (9, 90)]%Z /\ fl_lookup fpHash 3 l' 9%Z = Ok None /\
  (do r <- fl_insert i32 fpHash (fun _ => 0%Z) 3 l' 9%Z 91%Z;
   match r with LDone x => fl_scan 3 x | LSplit _ _ _ => UB end) = Ok [(5, 50); (9, 90); (9, 91)]%Z.
Proof.
  eexists (match fl_insert i32 fpHash (fun _ => 0%Z) 3 (fl_new Z (fun _ => 0%Z) 3) 5%Z 50%Z with Ok (LDone x) => x | _ => fl_new Z (fun _ => 0%Z) 3 end), _, 3.
  split; [|split; [vm_compute; reflexivity|splits; vm_compute; reflexivity]].
  apply (@FR_ins Z i32 fpHash (fun _ => 0%Z) 3 (fl_new Z (fun _ => 0%Z) 3) 5%Z 50%Z); [apply FR_new|vm_compute; reflexivity].
Qed.
Print Assumptions C19_refuted.

(** Missing: agreement of lookup with scan at the crash point between the last two stores. *)
Theorem C19_atomic_partial : forall V t fp junk M (l : fleaf V) key val,
  f_reach t fp junk M l -> absent (f_slots M l) key -> (exists i, i < M /\ bm_test M (fb l) i = Ok false) ->
  exists p, fl_stores fp l key val = Ok p /\ forall n, exists l',
    exec (@f_step V M) l (firstn n p) = Ok l' /\
    ((forall k, fl_lookup fp M l' k = fl_lookup fp M l k) \/
     (forall k, fl_lookup fp M l' k = if (k =? key)%Z then Ok (Some val) else fl_lookup fp M l k)) /\
    (same (f_slots M l) (f_slots M l') \/ plus (f_slots M l) key val (f_slots M l')) /\
    (exists out, fl_scan M l' = Ok out /\ reports (f_slots M l') out) /\
    (length p <= n -> plus (f_slots M l) key val (f_slots M l') /\ fl_lookup fp M l' key = Ok (Some val)).
Proof. intros V t fp junk M. exact (@f_atomic V t fp junk M). Qed.
Print Assumptions C19_atomic_partial.
(** Without failures lookup and scan agree. *)
Theorem C19_agree_partial : forall V t fp junk M (l : fleaf V),
  f_reach t fp junk M l -> exists out, fl_scan M l = Ok out /\ reports (f_slots M l) out /\
    forall k, exists r, fl_lookup fp M l k = Ok r /\ answers (f_slots M l) k r.
Proof. intros V t fp junk M. exact (@f_agree V t fp junk M). Qed.
Print Assumptions C19_agree_partial.
Theorem C19_stores : forall V fp M (l : fleaf V) u key val,
  exec (@f_step V M) l [SKey u key; SVal u val; SBit u; SFp u (fp key)] = fl_insert_at fp M l u key val.
Proof. intros V fp M. exact (f_put_exec fp M). Qed.
Print Assumptions C19_stores.
