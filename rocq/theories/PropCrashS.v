(** C77: power failure during a leaf split.  [firstn n p] are the stores that became durable; what can be
    found afterwards is what the leaf list reaches (scan, and recovery of the hybrid trees, follow it; the
    parent is only changed after the split). *)
From Verif Require Import Base RankModel BitmapModel BTreeModel SearchModel SLeafModel ULeafModel FLeafModel CrashModel CrashSpec
  CrashProofs CrashSModel CrashSSpec CrashTProofs CrashUProofs PropUnsorted PropCrash PropCrashE.
Open Scope nat_scope.

(** * Refutations *)

Definition ins3 (fp : Z -> Z) (l : fleaf Z) (k : Z) : fleaf Z :=
  match fl_insert i32 fp (fun _ => 0%Z) 4 l k (k + 1)%Z with Ok (LDone l') => l' | _ => l end.
(** Four entries in four slots, not sorted. *)
Definition four fp : fleaf Z := ins3 fp (ins3 fp (ins3 fp (ins3 fp (fl_new Z (fun _ => 0%Z) 4) 30) 10) 40) 20.
Lemma four_reach : forall fp, fp = fpHash \/ fp = (fun _ => 0%Z) -> f_reach i32 fp (fun _ => 0%Z) 4 (four fp).
Proof.
  assert (H : forall fp, fl_insert i32 fp (fun _ => 0%Z) 4 (ins3 fp (ins3 fp (ins3 fp (fl_new Z (fun _ => 0%Z) 4) 30) 10) 40) 20%Z 21%Z = Ok (LDone (four fp)) ->
    fl_insert i32 fp (fun _ => 0%Z) 4 (ins3 fp (ins3 fp (fl_new Z (fun _ => 0%Z) 4) 30) 10) 40%Z 41%Z = Ok (LDone (ins3 fp (ins3 fp (ins3 fp (fl_new Z (fun _ => 0%Z) 4) 30) 10) 40)) ->
    fl_insert i32 fp (fun _ => 0%Z) 4 (ins3 fp (fl_new Z (fun _ => 0%Z) 4) 30) 10%Z 11%Z = Ok (LDone (ins3 fp (ins3 fp (fl_new Z (fun _ => 0%Z) 4) 30) 10)) ->
    fl_insert i32 fp (fun _ => 0%Z) 4 (fl_new Z (fun _ => 0%Z) 4) 30%Z 31%Z = Ok (LDone (ins3 fp (fl_new Z (fun _ => 0%Z) 4) 30)) ->
    f_reach i32 fp (fun _ => 0%Z) 4 (four fp)).
  { intros fp H4 H3 H2 H1. exact (FR_ins (FR_ins (FR_ins (FR_ins (FR_new _ _ _ _ _) H1) H2) H3) H4). }
  intros fp [-> | ->]; apply H; vm_compute; reflexivity.
Qed.
Lemma four_full : forall fp, fp = fpHash \/ fp = (fun _ => 0%Z) -> full 4 (four fp).
Proof. intros fp [-> | ->] i Hi; destruct i as [|[|[|[|i]]]]; try lia; vm_compute; reflexivity. Qed.

(** FPTree: after the fifth store the entry of 30 is in no leaf of the list; with all of the 14 stores but
    the last two, 30 and 40 are missing. *)
Theorem C77_fptree_refuted : exists (l : fleaf Z) p,
  f_reach i32 fpHash (fun _ => 0%Z) 4 l /\ full 4 l /\ fl_split_stores i32 4 true l true = Ok p /\ length p = 14 /\
  (do st <- fx_exec 4 (x_init l (fl_new Z (fun _ => 0%Z) 4) true) (firstn 4 p); list_scan (fl_scan 4) st) = Ok [(30, 31); (10, 11); (40, 41); (20, 21)]%Z /\
  (do st <- fx_exec 4 (x_init l (fl_new Z (fun _ => 0%Z) 4) true) (firstn 5 p); list_scan (fl_scan 4) st) = Ok [(10, 11); (40, 41); (20, 21)]%Z /\
  (do st <- fx_exec 4 (x_init l (fl_new Z (fun _ => 0%Z) 4) true) (firstn 12 p); list_scan (fl_scan 4) st) = Ok [(10, 11); (20, 21)]%Z /\
  (do st <- fx_exec 4 (x_init l (fl_new Z (fun _ => 0%Z) 4) true) p; list_scan (fl_scan 4) st) = Ok [(10, 11); (20, 21); (30, 31); (40, 41)]%Z.
Proof.
  eexists (four fpHash), _. split; [now apply four_reach; left|]. split; [now apply four_full; left|].
  split; [vm_compute; reflexivity|]. splits; vm_compute; reflexivity.
Qed.
Print Assumptions C77_fptree_refuted.
(** BitPBPTree: the same one store earlier (no fingerprints). *)
Theorem C77_bit_refuted : exists (l : fleaf Z) p,
  f_reach i32 (fun _ => 0%Z) (fun _ => 0%Z) 4 l /\ full 4 l /\ fl_split_stores i32 4 false l true = Ok p /\ length p = 12 /\
  (do st <- fx_exec 4 (x_init l (fl_new Z (fun _ => 0%Z) 4) true) (firstn 3 p); list_scan (fl_scan 4) st) = Ok [(30, 31); (10, 11); (40, 41); (20, 21)]%Z /\
  (do st <- fx_exec 4 (x_init l (fl_new Z (fun _ => 0%Z) 4) true) (firstn 4 p); list_scan (fl_scan 4) st) = Ok [(10, 11); (40, 41); (20, 21)]%Z /\
  (do st <- fx_exec 4 (x_init l (fl_new Z (fun _ => 0%Z) 4) true) p; list_scan (fl_scan 4) st) = Ok [(10, 11); (20, 21); (30, 31); (40, 41)]%Z.
Proof.
  eexists (four (fun _ => 0%Z)), _. split; [now apply four_reach; right|]. split; [now apply four_full; right|].
  split; [vm_compute; reflexivity|]. splits; vm_compute; reflexivity.
Qed.
Print Assumptions C77_bit_refuted.

(** PBPTree: cutting the counter of the full leaf comes before linking the sibling. *)
Definition sorted4 : sleaf Z := SLeaf 4 [Some 10; Some 20; Some 30; Some 40]%Z [Some 11; Some 21; Some 31; Some 41]%Z.
Lemma sorted4_ok : s_ok 4 sorted4.
Proof.
  unfold s_ok, sorted4. cbn [sn sk sv]. splits; auto; try lia.
  - intros i Hi. destruct i as [|[|[|[|i]]]]; [| | | |lia]; vm_compute; eauto.
  - intros i j k k' H Ei Ej. destruct j as [|[|[|[|j]]]]; [lia| | | |lia]; destruct i as [|[|[|i]]]; try lia;
      vm_compute in Ei, Ej; injection Ei as <-; injection Ej as <-; lia.
Qed.
Theorem C77_sorted_refuted : exists (l : sleaf Z) p, s_ok 4 l /\ sn l = 4 /\ p = sl_split_stores 4 l false /\ length p = 8 /\
  (do st <- sx_exec (x_init l (sl_new Z 4) false) (firstn 5 p); list_scan (@sl_scan Z) st) = Ok [(10, 11); (20, 21); (30, 31); (40, 41)]%Z /\
  (do st <- sx_exec (x_init l (sl_new Z 4) false) (firstn 6 p); list_scan (@sl_scan Z) st) = Ok [(10, 11); (20, 21)]%Z /\
  (do st <- sx_exec (x_init l (sl_new Z 4) false) (firstn 7 p); list_scan (@sl_scan Z) st) = Ok [(10, 11); (20, 21); (30, 31); (40, 41)]%Z.
Proof. eexists sorted4, _. split; [exact sorted4_ok|]. split; [reflexivity|]. split; [reflexivity|]. splits; vm_compute; reflexivity. Qed.
Print Assumptions C77_sorted_refuted.

(** UnsortedPBPTree: the entries that stay are moved to the front one array at a time, over entries whose
    copies are not yet in the list: with keys 30, 10, 40, 20 in the slots, after the third store the list
    holds 10 twice and 30 not at all, and the first 10 has the value of 30. *)
Definition uins (l : sleaf Z) (k : Z) : sleaf Z := match ul_insert i32 4 l k (k + 1)%Z with Ok (LDone l') => l' | _ => l end.
Definition ufour : sleaf Z := uins (uins (uins (uins (sl_new Z 4) 30) 10) 40) 20.
Lemma ufour_reach : u_reach i32 4 ufour.
Proof.
  apply (@UR_ins Z i32 4 (uins (uins (uins (sl_new Z 4) 30) 10) 40) 20%Z 21%Z); [|vm_compute; reflexivity].
  apply (@UR_ins Z i32 4 (uins (uins (sl_new Z 4) 30) 10) 40%Z 41%Z); [|vm_compute; reflexivity].
  apply (@UR_ins Z i32 4 (uins (sl_new Z 4) 30) 10%Z 11%Z); [|vm_compute; reflexivity].
  apply (@UR_ins Z i32 4 (sl_new Z 4) 30%Z 31%Z); [apply UR_new|vm_compute; reflexivity].
Qed.
Theorem C77_unsorted_refuted : exists (l : sleaf Z) p, u_reach i32 4 l /\ sn l = 4 /\ ul_split_stores i32 4 l true = Ok p /\ length p = 14 /\
  (do st <- sx_exec (x_init l (sl_new Z 4) true) (firstn 3 p); list_scan (@sl_scan Z) st) = Ok [(10, 31); (10, 11); (40, 41); (20, 21)]%Z /\
  (do st <- sx_exec (x_init l (sl_new Z 4) true) (firstn 9 p); list_scan (@sl_scan Z) st) = Ok [(10, 11); (20, 21)]%Z /\
  (do st <- sx_exec (x_init l (sl_new Z 4) true) p; list_scan (@sl_scan Z) st) = Ok [(10, 11); (20, 21); (30, 31); (40, 41)]%Z.
Proof. eexists ufour, _. split; [exact ufour_reach|]. split; [reflexivity|]. split; [vm_compute; reflexivity|]. splits; vm_compute; reflexivity. Qed.
Print Assumptions C77_unsorted_refuted.

(** * What holds at every failure point *)

(** FPTree.  [fl_split] is the split as modelled for the tree; its stores lead to its result.  At
    every point: both leaves are sound (lookup and scan agree with the slots), together they hold exactly
    the entries of the full leaf, the leaves behind stay in the list, the list reports no key twice, and
    nothing is missing from it exactly before the first bit is cleared or once the sibling is linked.
    Missing: the points in between. *)
Theorem C77_fptree_partial : forall V t fp junk M (l : fleaf V) hasNext a b s,
  f_reach t fp junk M l -> full M l -> fl_split t junk M l = Ok (a, b, s) ->
  exists p, fl_split_stores t M true l hasNext = Ok p /\ forall n, exists st,
    fx_exec M (x_init l (fl_new V junk M) hasNext) (firstn n p) = Ok st /\
    (length p <= n -> snode st = a /\ ssib st = b /\ nnext st = Some Sib) /\
    f_agrees fp M (snode st) /\ f_agrees fp M (ssib st) /\
    shared (f_slots M) (f_slots M l) st /\ (hasNext = true -> rest_listed st) /\
    (exists out, list_scan (fl_scan M) st = Ok out /\ NoDup (map fst out) /\ forall k v, In (k, v) out <-> reaches (f_slots M) st k v) /\
    ((forall k v, has (f_slots M l) k v -> reaches (f_slots M) st k v) <-> n < 5 \/ length p - 2 < n).
Proof.
  intros V t fp junk M l hasNext a b s R F E. destruct (@f_split_all V t M fp junk true l hasNext a b s R F E) as (p & Ep & H); [discriminate|].
  exists p. split; [exact Ep|]. intros n. destruct (H n) as (st & X & D & SH & RL & LS & AG & IFF). destruct (AG eq_refl). exists st. splits; auto; apply IFF.
Qed.
Print Assumptions C77_fptree_partial.
(** BitPBPTree: leaves of FLeafModel with constant fingerprints, as for the tree (BitTreeModel). *)
Theorem C77_bit_partial : forall V t M (l : fleaf V) hasNext a b s,
  f_reach t (fun _ => 0%Z) (fun _ => 0%Z) M l -> full M l -> fl_split t (fun _ => 0%Z) M l = Ok (a, b, s) ->
  exists p, fl_split_stores t M false l hasNext = Ok p /\ forall n, exists st,
    fx_exec M (x_init l (fl_new V (fun _ => 0%Z) M) hasNext) (firstn n p) = Ok st /\
    (length p <= n -> snode st = a /\ ssib st = b /\ nnext st = Some Sib) /\
    shared (f_slots M) (f_slots M l) st /\ (hasNext = true -> rest_listed st) /\
    (exists out, list_scan (fl_scan M) st = Ok out /\ NoDup (map fst out) /\ forall k v, In (k, v) out <-> reaches (f_slots M) st k v) /\
    ((forall k v, has (f_slots M l) k v -> reaches (f_slots M) st k v) <-> n < 4 \/ length p - 2 < n).
Proof.
  intros V t M l hasNext a b s R F E. destruct (@f_split_all V t M (fun _ => 0%Z) (fun _ => 0%Z) false l hasNext a b s R F E) as (p & Ep & H).
  { intros _. splits; auto. exact (zero_fps R). }
  exists p. split; [exact Ep|]. intros n. destruct (H n) as (st & X & D & SH & RL & LS & _ & IFF). exists st. splits; auto; apply IFF.
Qed.
Print Assumptions C77_bit_partial.

(** PBPTree: nothing is missing exactly before the counter is cut or once the sibling is linked. *)
Theorem C77_sorted_partial : forall V M (l : sleaf V) hasNext, 2 <= M -> s_ok M l -> sn l = M -> forall n, exists st,
  sx_exec (x_init l (sl_new V M) hasNext) (firstn n (sl_split_stores M l hasNext)) = Ok st /\
  shared (@s_slots V) (s_slots l) st /\ (hasNext = true -> rest_listed st) /\
  (nnext st = Some Sib -> apart (@s_slots V) st) /\
  ((forall k v, has (s_slots l) k v -> reaches (@s_slots V) st k v) <->
   n < length (sl_split_stores M l hasNext) - length (@link_stores V hasNext) \/ length (sl_split_stores M l hasNext) - 2 < n).
Proof. exact s_split_prefix. Qed.
Print Assumptions C77_sorted_partial.
Theorem C77_sorted_stores : forall V M (l : sleaf V) hasNext, (M + 1) / 2 <= sn l ->
  (do st <- sx_exec (x_init l (sl_new V M) hasNext) (sl_split_stores M l hasNext); Ok (snode st, ssib st)) = sl_split M l.
Proof. exact s_split_exec. Qed.
Print Assumptions C77_sorted_stores.

(** UnsortedPBPTree.  Missing: that the list reports the entries, and only them; no entry is destroyed:
    each is in a counted slot of the split leaf or in some cell of the sibling. *)
Theorem C77_unsorted_partial : forall V t M (l : sleaf V) hasNext p,
  u_reach t M l -> sn l = M -> ul_split_stores t M l hasNext = Ok p -> forall n, exists st,
  sx_exec (x_init l (sl_new V M) hasNext) (firstn n p) = Ok st /\ (hasNext = true -> rest_listed st) /\
  forall k v, has (s_slots l) k v -> has (s_slots (snode st)) k v \/ has (cells (ssib st)) k v.
Proof. intros V t M l hasNext p R. exact (u_split_prefix (u_reach_wf R)). Qed.
Print Assumptions C77_unsorted_partial.
Theorem C77_unsorted_stores : forall V t M (l : sleaf V) hasNext p a b s,
  ul_split_stores t M l hasNext = Ok p -> ul_split t M l = Ok (a, b, s) ->
  exists st, sx_exec (x_init l (sl_new V M) hasNext) p = Ok st /\ snode st = a /\ ssib st = b /\ nnext st = Some Sib.
Proof. exact u_split_exec. Qed.
Print Assumptions C77_unsorted_stores.

(** The hypotheses hold for the leaves used above. *)
Example C77_ex :
  (do r <- fl_split i32 (fun _ => 0%Z) 4 (four fpHash); let '(a, b, s) := r in do x <- fl_scan 4 a; do y <- fl_scan 4 b; Ok (x, y, s))
  = Ok ([(10, 11); (20, 21)], [(30, 31); (40, 41)], 30)%Z /\
  f_reach i32 fpHash (fun _ => 0%Z) 4 (four fpHash) /\ full 4 (four fpHash) /\
  f_reach i32 (fun _ => 0%Z) (fun _ => 0%Z) 4 (four (fun _ => 0%Z)) /\ full 4 (four (fun _ => 0%Z)) /\
  (do r <- fl_split i32 (fun _ => 0%Z) 4 (four (fun _ => 0%Z)); Ok (snd r)) = Ok 30%Z /\
  s_ok 4 sorted4 /\ sn sorted4 = 4 /\ u_reach i32 4 ufour /\ sn ufour = 4 /\
  (do r <- ul_split i32 4 ufour; let '(a, b, s) := r in do x <- sl_scan a; do y <- sl_scan b; Ok (x, y, s))
  = Ok ([(10, 11); (20, 21)], [(30, 31); (40, 41)], 30)%Z.
Proof.
  split; [vm_compute; reflexivity|]. split; [now apply four_reach; left|]. split; [now apply four_full; left|].
  split; [now apply four_reach; right|]. split; [now apply four_full; right|]. split; [vm_compute; reflexivity|].
  split; [exact sorted4_ok|]. split; [reflexivity|]. split; [exact ufour_reach|]. split; [reflexivity|]. vm_compute. reflexivity.
Qed.
