(** C80: power failure during the merge of two leaves.  [firstn q p] are the stores that became durable. *)
From Verif Require Import Base RankModel BitmapModel BTreeModel SearchModel SLeafModel ULeafModel FLeafModel CrashModel CrashSpec CrashProofs
  CrashSModel CrashSSpec CrashSProofs CrashUProofs CrashMModel CrashMSpec CrashMProofs PropUnsorted PropCrash.
Open Scope nat_scope.

(** Leaves used below: [M] = 4, value = key + 1. *)
Definition msort (n : nat) (ks : list (option Z)) : sleaf Z := SLeaf n ks (map (option_map (fun k => k + 1)%Z) ks).
Definition mlo : sleaf Z := msort 2 [Some 10; Some 20; None; None]%Z.
Definition mhi : sleaf Z := msort 1 [Some 30; None; None; None]%Z.
Lemma mlo_ok : s_ok 4 mlo.
Proof.
  unfold s_ok, mlo, msort. cbn [sn sk sv map option_map]. splits; auto; try lia.
  - intros i Hi. destruct i as [|[|i]]; [| |lia]; vm_compute; eauto.
  - intros i j k k' H Ei Ej. destruct j as [|[|j]]; [lia| |lia]. destruct i as [|i]; [|lia]. vm_compute in Ei, Ej. injection Ei as <-. injection Ej as <-. lia.
Qed.
Lemma mhi_ok : s_ok 4 mhi.
Proof.
  unfold s_ok, mhi, msort. cbn [sn sk sv map option_map]. splits; auto; try lia.
  - intros i Hi. destruct i as [|i]; [|lia]. vm_compute; eauto.
Qed.
Definition mafter (p : res (list (mstore Z))) (l1 l2 : sleaf Z) (q : nat) : res (list (Z * Z)) :=
  do p <- p; do st <- m_exec (@s_step Z) (m_init l1 l2 true) (firstn q p); list_scan (@sl_scan Z) st.

(** PBPTree and UnsortedPBPTree: between the new counter and the new link the list has 30 twice. *)
Theorem C80_counter_refuted : exists (l1 l2 : sleaf Z), let p := sl_merge_stores l1 l2 true in
  s_ok 4 l1 /\ s_ok 4 l2 /\ mafter p l1 l2 2 = Ok [(10, 11); (20, 21); (30, 31)]%Z /\
  mafter p l1 l2 3 = Ok [(10, 11); (20, 21); (30, 31); (30, 31)]%Z /\ mafter p l1 l2 4 = Ok [(10, 11); (20, 21); (30, 31)]%Z.
Proof. exists mlo, mhi. intros p. split; [exact mlo_ok|]. split; [exact mhi_ok|]. splits; vm_compute; reflexivity. Qed.
Print Assumptions C80_counter_refuted.

Section Bit.
Variable fp : Z -> Z.
Definition fadd (l : fleaf Z) (k : Z) : fleaf Z := match fl_insert i32 fp (fun _ => 0%Z) 4 l k (k + 1)%Z with Ok (LDone l') => l' | _ => l end.
Definition fdel (l : fleaf Z) (k : Z) : fleaf Z := match fl_erase fp 4 l k with Ok (_, l') => l' | _ => l end.
Definition fnew : fleaf Z := fl_new Z (fun _ => 0%Z) 4.
Definition flo : fleaf Z := fadd (fadd fnew 10) 20.
Definition fhi : fleaf Z := fadd fnew 30.
Definition fafter (p : res (list (mstore Z))) (l1 l2 : fleaf Z) (q : nat) : res (list (Z * Z)) :=
  do p <- p; do st <- m_exec (@f_step Z 4) (m_init l1 l2 true) (firstn q p); list_scan (fl_scan 4) st.
End Bit.
Notation R fp := (f_reach i32 fp (fun _ => 0%Z) 4).
Lemma new_reach fp : R fp fnew.
Proof. apply FR_new. Qed.
Lemma flo_reach fp : fp = fpHash \/ fp = (fun _ => 0%Z) -> R fp (flo fp) /\ R fp (fhi fp) /\ R fp (fdel fp (flo fp) 20).
Proof.
  intros H. assert (A : R fp (fadd fp fnew 10)).
  { apply (@FR_ins Z i32 fp (fun _ => 0%Z) 4 fnew 10%Z 11%Z); [apply new_reach|]. destruct H; subst fp; vm_compute; reflexivity. }
  assert (B : R fp (flo fp)).
  { apply (@FR_ins Z i32 fp (fun _ => 0%Z) 4 (fadd fp fnew 10) 20%Z 21%Z); [exact A|]. destruct H; subst fp; vm_compute; reflexivity. }
  split; [exact B|]. split.
  - apply (@FR_ins Z i32 fp (fun _ => 0%Z) 4 fnew 30%Z 31%Z); [apply new_reach|]. destruct H; subst fp; vm_compute; reflexivity.
  - apply (@FR_del Z i32 fp (fun _ => 0%Z) 4 (flo fp) 20%Z true); [exact B|]. destruct H; subst fp; vm_compute; reflexivity.
Qed.

(** BitPBPTree: an entry is in both leaves from the moment its bit is set until the second leaf is unlinked. *)
Theorem C80_bit_refuted : exists (l1 l2 : fleaf Z), let p := fl_merge_stores 4 false l1 l2 true in
  R (fun _ => 0%Z) l1 /\ R (fun _ => 0%Z) l2 /\ fafter p l1 l2 2 = Ok [(10, 11); (20, 21); (30, 31)]%Z /\
  fafter p l1 l2 3 = Ok [(10, 11); (20, 21); (30, 31); (30, 31)]%Z /\ fafter p l1 l2 4 = Ok [(10, 11); (20, 21); (30, 31)]%Z.
Proof.
  exists (flo (fun _ => 0%Z)), (fhi (fun _ => 0%Z)). intros p. destruct (@flo_reach (fun _ => 0%Z)) as (A & B & _); [now right|].
  split; [exact A|]. split; [exact B|]. splits; vm_compute; reflexivity.
Qed.
Print Assumptions C80_bit_refuted.

(** FPTree sets the bit before it writes the slot: with a slot never used the scan reads uninitialised
    memory (undefined); with the slot of the erased key 20, key 20 is back. *)
Theorem C80_fptree_refuted : exists (l1 l1' l2 : fleaf Z), let p := fl_merge_stores 4 true l1 l2 true in let p' := fl_merge_stores 4 true l1' l2 true in
  R fpHash l1 /\ R fpHash l1' /\ R fpHash l2 /\ fl_scan 4 l1' = Ok [(10, 11)]%Z /\
  fafter p l1 l2 0 = Ok [(10, 11); (20, 21); (30, 31)]%Z /\ fafter p l1 l2 1 = UB /\
  fafter p' l1' l2 0 = Ok [(10, 11); (30, 31)]%Z /\ fafter p' l1' l2 1 = Ok [(10, 11); (20, 21); (30, 31)]%Z /\
  fafter p' l1' l2 3 = Ok [(10, 11); (30, 21); (30, 31)]%Z /\ fafter p' l1' l2 5 = Ok [(10, 11); (30, 31)]%Z.
Proof.
  exists (flo fpHash), (fdel fpHash (flo fpHash) 20), (fhi fpHash). intros p p'. destruct (@flo_reach fpHash) as (A & B & C); [now left|].
  split; [exact A|]. split; [exact C|]. split; [exact B|]. splits; vm_compute; reflexivity.
Qed.
Print Assumptions C80_fptree_refuted.

(** * What holds at every failure point *)

(** PBPTree.  Missing: the single failure point ([q] = 2 n + 1 with n entries moved) at which the moved entries are
    in both leaves.  At every point the list holds exactly the entries of the two leaves, and the leaves
    behind stay in it; the stores are those of the merge modelled for the tree. *)
Theorem C80_sorted_partial : forall V M (l1 l2 : sleaf V) hasNext,
  s_ok M l1 -> s_ok M l2 -> sn l1 + sn l2 <= M -> no_common (s_slots l1) (s_slots l2) ->
  exists p, sl_merge_stores l1 l2 hasNext = Ok p /\ length p = 2 * sn l2 + (if hasNext then 3 else 2) /\ forall q, exists st,
    m_exec (@s_step V) (m_init l1 l2 hasNext) (firstn q p) = Ok st /\ ssib st = l2 /\
    (hasNext = true -> rest_listed st) /\
    (forall k v, reaches (@s_slots V) st k v <-> has (s_slots l1) k v \/ has (s_slots l2) k v) /\
    (0 < sn l2 -> nnext st = Some Sib -> (apart (@s_slots V) st <-> q <> 2 * sn l2 + 1)) /\
    (2 * sn l2 < q -> sl_merge l1 l2 = Ok (snode st)) /\ (2 * sn l2 + 1 < q -> nnext st <> Some Sib).
Proof. intros V M l1 l2 hasNext W1 W2. exact (s_merge_crash hasNext (s_ok_wf W1) (s_ok_wf W2)). Qed.
Print Assumptions C80_sorted_partial.
(** UnsortedPBPTree: the same. *)
Theorem C80_unsorted_partial : forall V t M (l1 l2 : sleaf V) hasNext,
  u_reach t M l1 -> u_reach t M l2 -> sn l1 + sn l2 <= M -> no_common (s_slots l1) (s_slots l2) ->
  exists p, sl_merge_stores l1 l2 hasNext = Ok p /\ length p = 2 * sn l2 + (if hasNext then 3 else 2) /\ forall q, exists st,
    m_exec (@s_step V) (m_init l1 l2 hasNext) (firstn q p) = Ok st /\ ssib st = l2 /\
    (hasNext = true -> rest_listed st) /\
    (forall k v, reaches (@s_slots V) st k v <-> has (s_slots l1) k v \/ has (s_slots l2) k v) /\
    (0 < sn l2 -> nnext st = Some Sib -> (apart (@s_slots V) st <-> q <> 2 * sn l2 + 1)) /\
    (2 * sn l2 < q -> sl_merge l1 l2 = Ok (snode st)) /\ (2 * sn l2 + 1 < q -> nnext st <> Some Sib).
Proof. intros V t M l1 l2 hasNext W1 W2. exact (s_merge_crash hasNext (u_reach_wf W1) (u_reach_wf W2)). Qed.
Print Assumptions C80_unsorted_partial.

(** BitPBPTree ([m] entries move).  Missing: the points from the first bit to the link.  At every point the
    list holds exactly the entries of the two leaves; none is in both exactly before the first bit. *)
Theorem C80_bit_partial : forall V t M (l1 l2 r : fleaf V) hasNext,
  f_reach t (fun _ => 0%Z) (fun _ => 0%Z) M l1 -> f_reach t (fun _ => 0%Z) (fun _ => 0%Z) M l2 ->
  no_common (f_slots M l1) (f_slots M l2) -> fl_merge M l1 l2 = Ok r ->
  exists p m, fl_merge_stores M false l1 l2 hasNext = Ok p /\ length p = 3 * m + (if hasNext then 2 else 1) /\
    (m = 0 <-> forall k v, ~ has (f_slots M l2) k v) /\ forall q, exists st,
    m_exec (@f_step V M) (m_init l1 l2 hasNext) (firstn q p) = Ok st /\ ssib st = l2 /\
    (hasNext = true -> rest_listed st) /\ (nnext st = Some Sib <-> q <= 3 * m) /\
    (forall k v, reaches (f_slots M) st k v <-> has (f_slots M l1) k v \/ has (f_slots M l2) k v) /\
    (exists out, fl_scan M (snode st) = Ok out /\ reports (f_slots M (snode st)) out) /\
    (0 < m -> (apart (f_slots M) st <-> q < 3)) /\
    (3 * m <= q -> snode st = r).
Proof. exact b_merge_crash. Qed.
Print Assumptions C80_bit_partial.

(** FPTree.  Missing: what the slot being written shows.  At every point no entry is lost and the slots of the
    surviving leaf are intact; between two entries (every fourth store) lookup and scan of it are
    sound and the list holds nothing else. *)
Theorem C80_fptree_partial : forall V t fp junk M (l1 l2 r : fleaf V) hasNext,
  f_reach t fp junk M l1 -> f_reach t fp junk M l2 -> no_common (f_slots M l1) (f_slots M l2) -> fl_merge M l1 l2 = Ok r ->
  exists p m, fl_merge_stores M true l1 l2 hasNext = Ok p /\ length p = 4 * m + (if hasNext then 2 else 1) /\
    (m = 0 <-> forall k v, ~ has (f_slots M l2) k v) /\ forall q, exists st,
    m_exec (@f_step V M) (m_init l1 l2 hasNext) (firstn q p) = Ok st /\ ssib st = l2 /\
    (hasNext = true -> rest_listed st) /\ (nnext st = Some Sib <-> q <= 4 * m) /\
    (forall x e, f_slots M l1 x = Some e -> f_slots M (snode st) x = Some e) /\
    (forall k v, has (f_slots M l1) k v \/ has (f_slots M l2) k v -> reaches (f_slots M) st k v) /\
    (q mod 4 = 0 \/ 4 * m <= q -> f_agrees fp M (snode st) /\
       forall k v, reaches (f_slots M) st k v -> has (f_slots M l1) k v \/ has (f_slots M l2) k v) /\
    (4 * m <= q -> snode st = r).
Proof. exact f_merge_crash. Qed.
Print Assumptions C80_fptree_partial.

(** The hypotheses for the leaves above: nothing in common, the merges succeed. *)
Example C80_ex : no_common (s_slots mlo) (s_slots mhi) /\ sn mlo + sn mhi <= 4 /\
  (do l <- sl_merge mlo mhi; sl_scan l) = Ok [(10, 11); (20, 21); (30, 31)]%Z /\
  no_common (f_slots 4 (flo fpHash)) (f_slots 4 (fhi fpHash)) /\
  (do l <- fl_merge 4 (flo fpHash) (fhi fpHash); fl_scan 4 l) = Ok [(10, 11); (20, 21); (30, 31)]%Z /\
  no_common (f_slots 4 (flo (fun _ => 0%Z))) (f_slots 4 (fhi (fun _ => 0%Z))) /\
  (do l <- fl_merge 4 (flo (fun _ => 0%Z)) (fhi (fun _ => 0%Z)); fl_scan 4 l) = Ok [(10, 11); (20, 21); (30, 31)]%Z.
Proof.
  assert (S : forall fp, fp = fpHash \/ fp = (fun _ => 0%Z) -> no_common (f_slots 4 (flo fp)) (f_slots 4 (fhi fp))).
  { intros fp H k v w (i & Hi) (j & Hj). destruct H; subst fp;
      (do 4 (destruct i as [|i]; [vm_compute in Hi; try discriminate; injection Hi as <- <-; do 4 (destruct j as [|j]; [vm_compute in Hj; try discriminate; injection Hj; intros; discriminate|]); vm_compute in Hj; discriminate|]));
      vm_compute in Hi; discriminate. }
  split.
  { intros k v w (i & Hi) (j & Hj). apply s_slots_live in Hi as (Li & Ki & _). apply s_slots_live in Hj as (Lj & Kj & _). cbn [sn mlo mhi msort] in Li, Lj.
    destruct j as [|j]; [|lia]. destruct i as [|[|i]]; [| |lia]; vm_compute in Ki, Kj; injection Ki as <-; discriminate. }
  split; [cbn; lia|]. split; [vm_compute; reflexivity|]. split; [apply S; now left|]. split; [vm_compute; reflexivity|]. split; [apply S; now right|]. vm_compute. reflexivity.
Qed.
