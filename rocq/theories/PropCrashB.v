(** C81: power failure while entries are moved between neighbouring leaves.  [firstn q p] are the stores that became durable. *)
From Verif Require Import Base RankModel BitmapModel BTreeModel SearchModel SLeafModel ULeafModel FLeafModel CrashModel CrashSpec CrashProofs
  CrashSModel CrashSSpec CrashSProofs CrashUProofs CrashMModel CrashMSpec CrashMProofs CrashBModel CrashBSpec CrashBProofs CrashDProofs PropUnsorted PropCrash PropCrashE PropCrashS PropCrashM.
Open Scope nat_scope.

Definition bafter (p : res (list (dstore Z))) (d r : sleaf Z) (q : nat) : res (list (Z * Z)) :=
  do p <- p; do st <- d_exec (@s_step Z) (d, r) (firstn q p); pair_scan (@sl_scan Z) true st.

(** PBPTree, donor 10, 20, 30, receiver 40: after the third of six stores 40 is gone and 30 is
    there twice, once with the value of 40. *)
Definition mright : sleaf Z := msort 1 [Some 40; None; None; None]%Z.
Lemma mright_ok : s_ok 4 mright.
Proof.
  unfold s_ok, mright, msort. cbn [sn sk sv map option_map]. splits; auto; try lia.
  - intros i Hi. destruct i as [|i]; [|lia]. vm_compute; eauto.
Qed.
Theorem C81_sorted_refuted : exists (d r : sleaf Z), let p := sl_balance_stores d r in
  s_ok 4 d /\ s_ok 4 r /\ bafter p d r 2 = Ok [(10, 11); (20, 21); (30, 31); (40, 41)]%Z /\
  bafter p d r 3 = Ok [(10, 11); (20, 21); (30, 31); (30, 41)]%Z /\
  bafter p d r 5 = Ok [(10, 11); (20, 21); (30, 31); (30, 31); (40, 41)]%Z /\
  bafter p d r 6 = Ok [(10, 11); (20, 21); (30, 31); (40, 41)]%Z.
Proof. exists sorted3, mright. intros p. split; [exact sorted3_ok|]. split; [exact mright_ok|]. splits; vm_compute; reflexivity. Qed.
Print Assumptions C81_sorted_refuted.

(** UnsortedPBPTree, donor 30, 10, 20: with the counter decremented before the last entry fills the
    gap, 20 is gone after four and five of six stores; after five, 10 is there but 20 has the value of 30. *)
Definition udonor : sleaf Z := uins (uins (uins (sl_new Z 4) 30) 10) 20.
Definition urecv : sleaf Z := uins (sl_new Z 4) 40.
Lemma udonor_reach : u_reach i32 4 udonor /\ u_reach i32 4 urecv.
Proof.
  split.
  - apply (@UR_ins Z i32 4 (uins (uins (sl_new Z 4) 30) 10) 20%Z 21%Z); [|vm_compute; reflexivity].
    apply (@UR_ins Z i32 4 (uins (sl_new Z 4) 30) 10%Z 11%Z); [|vm_compute; reflexivity].
    apply (@UR_ins Z i32 4 (sl_new Z 4) 30%Z 31%Z); [apply UR_new|vm_compute; reflexivity].
  - apply (@UR_ins Z i32 4 (sl_new Z 4) 40%Z 41%Z); [apply UR_new|vm_compute; reflexivity].
Qed.
Theorem C81_unsorted_refuted : exists (d r : sleaf Z), let p := ul_balance_stores d r in
  u_reach i32 4 d /\ u_reach i32 4 r /\ bafter p d r 0 = Ok [(30, 31); (10, 11); (20, 21); (40, 41)]%Z /\
  bafter p d r 3 = Ok [(30, 31); (10, 11); (20, 21); (40, 41); (30, 31)]%Z /\
  bafter p d r 4 = Ok [(30, 31); (10, 11); (40, 41); (30, 31)]%Z /\
  bafter p d r 5 = Ok [(20, 31); (10, 11); (40, 41); (30, 31)]%Z /\
  bafter p d r 6 = Ok [(20, 21); (10, 11); (40, 41); (30, 31)]%Z.
Proof.
  exists udonor, urecv. intros p. destruct udonor_reach as [A B]. split; [exact A|]. split; [exact B|]. splits; vm_compute; reflexivity.
Qed.
Print Assumptions C81_unsorted_refuted.

(** Bitmap leaves: donor 10, 20, 15, receiver 30. *)
Definition fdon fp : fleaf Z := fadd fp (flo fp) 15.
Definition dafter fp fpt (d r : fleaf Z) (q : nat) : res (list (Z * Z)) :=
  do p <- fl_balance_stores i32 4 fp fpt d r; do st <- d_exec (@f_step Z 4) (d, r) (firstn q p); pair_scan (fl_scan 4) true st.
Lemma fdon_reach fp : fp = fpHash \/ fp = (fun _ => 0%Z) -> R fp (fdon fp) /\ R fp (fhi fp).
Proof.
  intros H. destruct (flo_reach H) as (A & B & _). split; [|exact B].
  apply (@FR_ins Z i32 fp (fun _ => 0%Z) 4 (flo fp) 15%Z 16%Z); [exact A|]. destruct H; subst fp; vm_compute; reflexivity.
Qed.
(** BitPBPTree: the moved entry is in both leaves between its bits. *)
Theorem C81_bit_refuted : exists (d r : fleaf Z), R (fun _ => 0%Z) d /\ R (fun _ => 0%Z) r /\
  dafter (fun _ => 0%Z) false d r 2 = Ok [(10, 11); (20, 21); (15, 16); (30, 31)]%Z /\
  dafter (fun _ => 0%Z) false d r 3 = Ok [(10, 11); (20, 21); (15, 16); (30, 31); (20, 21)]%Z /\
  dafter (fun _ => 0%Z) false d r 4 = Ok [(10, 11); (15, 16); (30, 31); (20, 21)]%Z.
Proof.
  exists (fdon (fun _ => 0%Z)), (fhi (fun _ => 0%Z)). destruct (@fdon_reach (fun _ => 0%Z)) as (A & B); [now right|].
  split; [exact A|]. split; [exact B|]. splits; vm_compute; reflexivity.
Qed.
Print Assumptions C81_bit_refuted.
(** FPTree sets the receiver's bit before it writes the slot. *)
Theorem C81_fptree_refuted : exists (d r : fleaf Z), R fpHash d /\ R fpHash r /\
  dafter fpHash true d r 0 = Ok [(10, 11); (20, 21); (15, 16); (30, 31)]%Z /\
  dafter fpHash true d r 1 = UB /\
  dafter fpHash true d r 4 = Ok [(10, 11); (20, 21); (15, 16); (30, 31); (20, 21)]%Z /\
  dafter fpHash true d r 5 = Ok [(10, 11); (15, 16); (30, 31); (20, 21)]%Z.
Proof.
  exists (fdon fpHash), (fhi fpHash). destruct (@fdon_reach fpHash) as (A & B); [now left|].
  split; [exact A|]. split; [exact B|]. splits; vm_compute; reflexivity.
Qed.
Print Assumptions C81_fptree_refuted.

(** * What holds *)

(** PBPTree, receiver to the right of the donor.  Missing: what the receiver shows while the room at its front
    is made and filled.  The donor is intact until the last store, every pair of the receiver is
    in some cell of it at any time, its slots are as before while the copies stay behind the
    counter, and from the last but one store on the two leaves hold exactly what they held. *)
Theorem C81_sorted_right_partial : forall V M (d r : sleaf V) (d0 r0 : Z),
  let bal := (sn d + sn r) / 2 in let tm := sn d - bal in
  s_ok M d -> s_ok M r -> once (@s_slots V) (d, r) -> 0 < tm -> aget (sk d) 0 = Ok d0 -> aget (sk r) 0 = Ok r0 -> (d0 < r0)%Z ->
  exists p out, sl_balance_stores d r = Ok p /\ length p = 2 * sn r + 3 * tm + 1 /\ sl_balance d r = Ok out /\
  forall q, exists st, d_exec (@s_step V) (d, r) (firstn q p) = Ok st /\
    (q < length p -> fst st = d) /\
    (forall k v, has (s_slots r) k v -> has (cells (snd st)) k v) /\
    (q <= 2 * Nat.min (sn r) tm -> forall i, s_slots (snd st) i = s_slots r i) /\
    (2 * sn r + 3 * tm <= q -> forall k v, listed (@s_slots V) st k v <-> listed (@s_slots V) (d, r) k v) /\
    (length p <= q -> st = out /\ once (@s_slots V) st).
Proof. intros V M d r d0 r0 bal tm Wd Wr. exact (s_balance_right (s_ok_wf Wd) (s_ok_wf Wr)). Qed.
Print Assumptions C81_sorted_right_partial.

(** Receiver to the left.  Missing: entries are in both leaves from the first counter store on, and at
    the odd points of closing the gap one key has the value of another.  Nothing is lost at any point. *)
Theorem C81_sorted_left_partial : forall V M (d r : sleaf V) (d0 r0 : Z),
  let bal := (sn d + sn r) / 2 in let tm := sn d - bal in
  s_ok M d -> s_ok M r -> once (@s_slots V) (d, r) -> 0 < tm -> aget (sk d) 0 = Ok d0 -> aget (sk r) 0 = Ok r0 -> (r0 <= d0)%Z ->
  exists p out, sl_balance_stores d r = Ok p /\ length p = 3 * tm + 2 * bal + 1 /\ sl_balance d r = Ok out /\
  forall q, exists st, d_exec (@s_step V) (d, r) (firstn q p) = Ok st /\
    (q <= 3 * tm -> fst st = d) /\
    (forall k v, listed (@s_slots V) (d, r) k v -> listed (@s_slots V) st k v) /\
    ((q - 3 * tm) mod 2 = 0 \/ length p <= q -> forall k v, listed (@s_slots V) st k v -> listed (@s_slots V) (d, r) k v) /\
    (q < 3 \/ length p <= q -> once (@s_slots V) st) /\
    (3 <= q <= 3 * tm -> ~ once (@s_slots V) st) /\
    (length p <= q -> st = out).
Proof. intros V M d r d0 r0 bal tm Wd Wr. exact (s_balance_left (s_ok_wf Wd) (s_ok_wf Wr)). Qed.
Print Assumptions C81_sorted_left_partial.

(** UnsortedPBPTree, six stores per entry.  Missing: the entry that fills the gap, at the fourth and fifth
    store of a round, and the moved entry, which is in both leaves after the third.  Every other key is
    in the leaves as before at any point, and scan and lookup of both leaves are sound. *)
Theorem C81_unsorted_partial : forall V t M (d r : sleaf V) out,
  u_reach t M d -> u_reach t M r -> once (@s_slots V) (d, r) -> ul_balance d r = Ok out ->
  exists p, ul_balance_stores d r = Ok p /\ length p = 6 * (sn d - (sn d + sn r) / 2) /\ forall q, exists st,
    d_exec (@s_step V) (d, r) (firstn q p) = Ok st /\ u_agrees (fst st) /\ u_agrees (snd st) /\
    (exists x, forall k v, k <> x -> (listed (@s_slots V) st k v <-> listed (@s_slots V) (d, r) k v)) /\
    (q mod 6 <= 3 \/ length p <= q -> forall k v, listed (@s_slots V) st k v <-> listed (@s_slots V) (d, r) k v) /\
    (q mod 6 <= 2 \/ length p <= q -> once (@s_slots V) st) /\ (q < length p -> q mod 6 = 3 -> ~ once (@s_slots V) st) /\
    (length p <= q -> st = out).
Proof. intros V t M d r out Wd Wr. exact (u_balance_crash (u_reach_wf Wd) (u_reach_wf Wr)). Qed.
Print Assumptions C81_unsorted_partial.

(** BitPBPTree, four stores per entry.  Missing: the point between the two bits, where an entry is in both leaves. *)
Theorem C81_bit_partial : forall V t M (d r : fleaf V) out,
  f_reach t (fun _ => 0%Z) (fun _ => 0%Z) M d -> f_reach t (fun _ => 0%Z) (fun _ => 0%Z) M r -> once (f_slots M) (d, r) -> (N.of_nat M < BitmapModel.W)%N ->
  1 < fl_count d -> (forall k v, has (f_slots M d) k v -> kt_in t k) -> fl_balance t (fun _ => 0%Z) M d r = Ok out ->
  exists p, fl_balance_stores t M (fun _ => 0%Z) false d r = Ok p /\ length p = 4 * (fl_count d - (fl_count d + fl_count r) / 2) /\ forall q, exists st,
    d_exec (@f_step V M) (d, r) (firstn q p) = Ok st /\
    (forall l, l = fst st \/ l = snd st -> exists s, fl_scan M l = Ok s /\ reports (f_slots M l) s) /\
    (forall k v, listed (f_slots M) st k v <-> listed (f_slots M) (d, r) k v) /\
    (once (f_slots M) st <-> q mod 4 <> 3 \/ length p <= q) /\
    (length p <= q -> st = out).
Proof. exact b_balance_crash. Qed.
Print Assumptions C81_bit_partial.

(** FPTree, five stores per entry.  Missing: what the slot being written shows after the first three stores of
    a round, and the duplicate after the fourth.  Nothing is lost at any point. *)
Theorem C81_fptree_partial : forall V t fp junk M (d r : fleaf V) out,
  f_reach t fp junk M d -> f_reach t fp junk M r -> once (f_slots M) (d, r) -> (N.of_nat M < BitmapModel.W)%N ->
  1 < fl_count d -> (forall k v, has (f_slots M d) k v -> kt_in t k) -> fl_balance t fp M d r = Ok out ->
  exists p, fl_balance_stores t M fp true d r = Ok p /\ length p = 5 * (fl_count d - (fl_count d + fl_count r) / 2) /\ forall q, exists st,
    d_exec (@f_step V M) (d, r) (firstn q p) = Ok st /\ f_agrees fp M (fst st) /\
    (forall k v, listed (f_slots M) (d, r) k v -> listed (f_slots M) st k v) /\
    (q mod 5 = 0 \/ q mod 5 = 4 \/ length p <= q -> f_agrees fp M (snd st) /\ forall k v, listed (f_slots M) st k v -> listed (f_slots M) (d, r) k v) /\
    (q mod 5 = 0 \/ length p <= q -> once (f_slots M) st) /\
    (q < length p -> q mod 5 = 4 -> ~ once (f_slots M) st) /\
    (length p <= q -> st = out).
Proof. exact fp_balance_crash. Qed.
Print Assumptions C81_fptree_partial.

(** The hypotheses for the leaves above. *)
Definition mleft : sleaf Z := msort 1 [Some 5; None; None; None]%Z.
Lemma s_once (d r : sleaf Z) : (forall i j k k', i < sn d -> j < sn r -> aget (sk d) i = Ok k -> aget (sk r) j = Ok k' -> k <> k') -> once (@s_slots Z) (d, r).
Proof. intros H k v w (i & Hi) (j & Hj). apply s_slots_live in Hi as (Li & Ki & _). apply s_slots_live in Hj as (Lj & Kj & _). exact (H i j k k Li Lj Ki Kj eq_refl). Qed.
Example C81_sorted_ex : once (@s_slots Z) (sorted3, mright) /\ once (@s_slots Z) (sorted3, mleft) /\ once (@s_slots Z) (udonor, urecv) /\
  0 < sn sorted3 - (sn sorted3 + sn mright) / 2 /\ s_ok 4 mleft /\
  map (bafter (sl_balance_stores sorted3 mleft) sorted3 mleft) [0; 3; 4; 5; 8] =
    [Ok [(10, 11); (20, 21); (30, 31); (5, 6)]; Ok [(10, 11); (20, 21); (30, 31); (5, 6); (10, 11)]; Ok [(20, 11); (20, 21); (30, 31); (5, 6); (10, 11)];
     Ok [(20, 21); (20, 21); (30, 31); (5, 6); (10, 11)]; Ok [(20, 21); (30, 31); (5, 6); (10, 11)]]%Z /\
  (do o <- ul_balance udonor urecv; pair_scan (@sl_scan Z) true o) = Ok [(20, 21); (10, 11); (40, 41); (30, 31)]%Z.
Proof.
  split; [|split; [|split]]; [apply s_once..|].
  - intros i j k k' Li Lj A B. cbn [sn sorted3 mright msort] in Li, Lj. destruct j as [|j]; [|lia]. destruct i as [|[|[|i]]]; [| | |lia]; vm_compute in A, B; injection A as <-; injection B as <-; discriminate.
  - intros i j k k' Li Lj A B. cbn [sn sorted3 mleft msort] in Li, Lj. destruct j as [|j]; [|lia]. destruct i as [|[|[|i]]]; [| | |lia]; vm_compute in A, B; injection A as <-; injection B as <-; discriminate.
  - intros i j k k' Li Lj A B. assert (sn udonor = 3) by reflexivity. assert (sn urecv = 1) by reflexivity. destruct j as [|j]; [|lia]. destruct i as [|[|[|i]]]; [| | |lia]; vm_compute in A, B; injection A as <-; injection B as <-; discriminate.
  - split; [vm_compute; lia|]. split; [|split; vm_compute; reflexivity].
    unfold s_ok, mleft, msort. cbn [sn sk sv map option_map]. splits; auto; try lia. intros i Hi. destruct i as [|i]; [|lia]. vm_compute; eauto.
Qed.
Example C81_bits_ex : forall fp, fp = fpHash \/ fp = (fun _ => 0%Z) ->
  once (f_slots 4) (fdon fp, fhi fp) /\ 1 < fl_count (fdon fp) /\ (forall k v, has (f_slots 4 (fdon fp)) k v -> kt_in i32 k) /\
  (do o <- fl_balance i32 fp 4 (fdon fp) (fhi fp); pair_scan (fl_scan 4) true o) = Ok [(10, 11); (15, 16); (30, 31); (20, 21)]%Z.
Proof.
  intros fp H. split.
  { intros k v w (i & Hi) (j & Hj). destruct H; subst fp; cbn [fst snd] in Hi, Hj;
      (do 4 (destruct i as [|i]; [vm_compute in Hi; try discriminate; injection Hi as <- <-; do 4 (destruct j as [|j]; [vm_compute in Hj; try discriminate; injection Hj; intros; discriminate|]); vm_compute in Hj; discriminate|]));
      vm_compute in Hi; discriminate. }
  split; [destruct H; subst fp; vm_compute; lia|]. split.
  { intros k v (i & Hi). destruct H; subst fp; (do 4 (destruct i as [|i]; [vm_compute in Hi; try discriminate; injection Hi as <- <-; split; vm_compute; discriminate|])); vm_compute in Hi; discriminate. }
  destruct H; subst fp; vm_compute; reflexivity.
Qed.
