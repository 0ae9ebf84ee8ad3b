(** C78, C79: power failure during a leaf operation of wBPTree and wHBPTree.  [firstn q p] are the stores that
    became durable. *)
From Verif Require Import Base BitmapModel BTreeModel SearchModel WbModel WbSpec WbProofs WbMain WbLeaf CrashSModel CrashSSpec CrashWModel CrashWSpec
  CrashWProofs CrashXProofs.
Open Scope nat_scope.

(** Leaves used below: [M] = 4, value = key + 1. *)
Definition wins (l : wleaf Z) (k : Z) : wleaf Z := match w_insert 4 l k (k + 1)%Z with Ok (LDone l') => l' | _ => l end.
Lemma wins_good l k n : good_leaf 4 l -> w_count l = Ok n -> n < 4 -> w_lookup l k = Ok None -> good_leaf 4 (wins l k).
Proof.
  intros G C Hn E. destruct (leaf_lookup k G) as [(v & _ & X)|(NK & _)]; [congruence|].
  destruct (leaf_insert (k + 1)%Z G C Hn NK) as (l' & E' & G' & _). unfold wins. rewrite E'. exact G'.
Qed.
Definition w0 : wleaf Z := w_new Z 4.
Lemma w0_good : good_leaf 4 w0.
Proof. exact (wrep_good (w_new_rep Z 4)). Qed.
Definition w2 : wleaf Z := wins (wins w0 20) 10.
Definition w3 : wleaf Z := wins w2 30.
Definition w4 : wleaf Z := wins w3 40.
Lemma w2_good : good_leaf 4 w2.
Proof.
  assert (G1 : good_leaf 4 (wins w0 20)) by (apply (@wins_good w0 20%Z 0 w0_good); [vm_compute; reflexivity|lia|vm_compute; reflexivity]).
  apply (@wins_good (wins w0 20) 10%Z 1 G1); [vm_compute; reflexivity|lia|vm_compute; reflexivity].
Qed.
Lemma w3_good : good_leaf 4 w3.
Proof. apply (@wins_good w2 30%Z 2 w2_good); [vm_compute; reflexivity|lia|vm_compute; reflexivity]. Qed.
Lemma w4_good : good_leaf 4 w4.
Proof. apply (@wins_good w3 40%Z 3 w3_good); [vm_compute; reflexivity|lia|vm_compute; reflexivity]. Qed.
(** What scan reports after the first [q] stores of [p], and after one more insert. *)
Definition scan_after (l : wleaf Z) (p : res (list (wstore Z))) (q : nat) : res (list (Z * Z)) :=
  do p <- p; do l' <- w_exec 4 l (firstn q p); w_scan l'.
Definition scan_then (l : wleaf Z) (p : res (list (wstore Z))) (q : nat) (k : Z) : res (list (Z * Z)) :=
  do p <- p; do l' <- w_exec 4 l (firstn q p);
  do r <- w_insert 4 l' k (k + 1)%Z;
  match r with LDone x => w_scan x | LSplit _ _ _ => UB end.

(** * C78, insert *)

(** Inserting 5 into 10, 20, 30: once the slots are being moved, 30 is no longer listed and 10 or 20 is
    listed twice. *)
Theorem C78_insert_refuted : exists (l : wleaf Z) key,
  good_leaf 4 l /\ w_pos l key = Ok 1 /\ w_scan l = Ok [(10, 11); (20, 21); (30, 31)]%Z /\ forall hyb,
  let p := w_insert_stores hyb l 1 key (key + 1)%Z in
  scan_after l p 4 = Ok [(10, 11); (20, 21); (20, 21)]%Z /\ scan_after l p 5 = Ok [(10, 11); (10, 11); (20, 21)]%Z /\
  scan_after l p 6 = Ok [(5, 6); (10, 11); (20, 21)]%Z /\ scan_after l p 8 = Ok [(5, 6); (10, 11); (20, 21); (30, 31)]%Z.
Proof. exists w3, 5%Z. split; [exact w3_good|]. split; [vm_compute; reflexivity|]. split; [vm_compute; reflexivity|]. intros [] p; splits; vm_compute; reflexivity. Qed.
Print Assumptions C78_insert_refuted.

(** Appending, which loses nothing of the old entries, still leaves bitmap and slots in disagreement.
    wBPTree: the bit is set before the entry is counted; the position is lost, and filling the leaf later
    writes behind the arrays (undefined). *)
Theorem C78_leak_refuted : exists (l l1 : wleaf Z) p,
  good_leaf 4 l /\ w_pos l 30%Z = Ok 3 /\ w_insert_stores false l 3 30%Z 31%Z = Ok p /\ w_exec 4 l (firstn 4 p) = Ok l1 /\
  w_scan l1 = w_scan l /\ w_insert 4 (wins l1 40) 50%Z 51%Z = UB /\
  w_scan (wins l1 40) = Ok [(10, 11); (20, 21); (40, 41)]%Z.
Proof. eexists w2, _, _. split; [exact w2_good|]. split; [vm_compute; reflexivity|]. split; [vm_compute; reflexivity|]. split; [vm_compute; reflexivity|]. splits; vm_compute; reflexivity. Qed.
Print Assumptions C78_leak_refuted.
(** wHBPTree: the entry is counted before its bit is set; the next insert takes the same position and
    overwrites it: 30 becomes a second 40. *)
Theorem C78_reuse_refuted : exists (l : wleaf Z),
  good_leaf 4 l /\ w_pos l 30%Z = Ok 3 /\
  scan_after l (w_insert_stores true l 3 30%Z 31%Z) 4 = Ok [(10, 11); (20, 21); (30, 31)]%Z /\
  scan_then l (w_insert_stores true l 3 30%Z 31%Z) 4 40%Z = Ok [(10, 11); (20, 21); (40, 41); (40, 41)]%Z.
Proof. exists w2. split; [exact w2_good|]. splits; vm_compute; reflexivity. Qed.
Print Assumptions C78_reuse_refuted.

(** Missing: the failure points at which the last entry is not listed, and the agreement with the bitmap.
    At every point: no old entry is destroyed, only old entries and the new one are listed, slots in front
    of the position are untouched; all old entries are listed exactly when at most one slot has been
    moved, when appending, and once the counter is up (the last store but one in wHBPTree). *)
Theorem C78_insert_partial : forall V M hyb (l : wleaf V) n pos key val,
  good_leaf M l -> w_count l = Ok n -> n < M -> 1 <= pos <= n + 1 -> (forall v, ~ stored M l key v) ->
  exists p, w_insert_stores hyb l pos key val = Ok p /\ length p = n + 6 - pos /\ forall q, exists l',
    w_exec M l (firstn q p) = Ok l' /\
    (forall k v, stored M l k v -> stored M l' k v) /\
    (forall k v, listed l' k v -> stored M l k v \/ (k = key /\ v = val)) /\
    ((forall k v, stored M l k v -> listed l' k v) <-> q <= 3 \/ pos = n + 1 \/ length p - (if hyb then 1 else 0) <= q) /\
    (forall i, 1 <= i < pos -> aget (ws l') i = aget (ws l) i) /\
    (length p <= q -> w_insert_at M l pos key val = Ok l').
Proof. intros V M. exact (@w_insert_crash V M). Qed.
Print Assumptions C78_insert_partial.

(** * C78, erase *)

(** Erasing 10 from 10, 20: before the counter is changed the last slot listed is one that was never
    written (undefined); after the first store alone, 10 is still listed at a position that the next
    insert takes, so 10 turns into 50. *)
Theorem C78_erase_refuted : exists (l : wleaf Z),
  good_leaf 4 l /\ w_pos l 10%Z = Ok 1 /\ w_scan l = Ok [(10, 11); (20, 21)]%Z /\
  scan_after l (w_erase_stores l 1) 2 = Ok [(20, 21); (20, 21)]%Z /\
  scan_after l (w_erase_stores l 1) 3 = UB /\
  scan_after l (w_erase_stores l 1) 4 = Ok [(20, 21)]%Z /\
  scan_then (wins l 30) (w_erase_stores (wins l 30) 1) 1 50%Z = Ok [(50, 51); (20, 21); (30, 31); (50, 51)]%Z.
Proof. exists w2. split; [exact w2_good|]. splits; vm_compute; reflexivity. Qed.
Print Assumptions C78_erase_refuted.

(** Missing: duplicates, and what is listed between the last slot move and the counter.  At every point the other
    entries are listed; before the last slot is moved nothing else is. *)
Theorem C78_erase_partial : forall V M (l : wleaf V) n pos x key,
  good_leaf M l -> w_count l = Ok n -> n < M -> 1 <= pos <= n -> aget (ws l) pos = Ok x -> aget (wk l) x = Ok key ->
  exists p, w_erase_stores l pos = Ok p /\ length p = n + 3 - pos /\ forall q, exists l',
    w_exec M l (firstn q p) = Ok l' /\
    (forall k v, stored M l k v -> k <> key -> listed l' k v) /\
    (q <= n + 1 - pos -> forall k v, listed l' k v -> stored M l k v) /\
    (forall i, 1 <= i < pos -> aget (ws l') i = aget (ws l) i) /\
    (length p <= q -> w_erase_at M l pos = Ok l').
Proof. intros V M. exact (@w_erase_crash V M). Qed.
Print Assumptions C78_erase_partial.

(** The hypotheses for 25 going between 20 and 30, and for erasing 20. *)
Example C78_ex : good_leaf 4 w3 /\ w_count w3 = Ok 3 /\ w_pos w3 25%Z = Ok 3 /\ (forall v, ~ stored 4 w3 25%Z v) /\
  scan_after w3 (w_insert_stores false w3 3 25%Z 26%Z) 4 = Ok [(10, 11); (20, 21); (25, 26)]%Z /\
  w_pos w3 20%Z = Ok 2 /\ aget (ws w3) 2 = Ok 0 /\ aget (wk w3) 0 = Ok 20%Z /\
  scan_after w3 (w_erase_stores w3 2) 4 = Ok [(10, 11); (30, 31)]%Z.
Proof.
  split; [exact w3_good|]. split; [reflexivity|]. split; [reflexivity|]. split; [|splits; vm_compute; reflexivity].
  intros v Hv. destruct (leaf_lookup 25%Z w3_good) as [(w & _ & X)|(NK & _)]; [vm_compute in X; discriminate|exact (NK v Hv)].
Qed.

(** * C79, split *)

Definition lscan_after (l : wleaf Z) (p : list (wxstore Z)) (q : nat) : res (list (Z * Z)) :=
  do st <- wx_exec 4 (x_init l (w_new Z 4) true) (firstn q p); list_scan (@w_scan Z) st.
(** The second store cuts the counter of the full leaf; the sibling is linked 14 stores later. *)
Theorem C79_refuted : exists (l : wleaf Z) p,
  good_leaf 4 l /\ w_count l = Ok 4 /\ w_split_stores 4 l true = Ok p /\ length p = 16 /\
  lscan_after l p 1 = Ok [(10, 11); (20, 21); (30, 31); (40, 41)]%Z /\
  lscan_after l p 2 = Ok [(10, 11); (20, 21)]%Z /\ lscan_after l p 14 = Ok [(10, 11); (20, 21)]%Z /\
  lscan_after l p 15 = Ok [(10, 11); (20, 21); (30, 31); (40, 41)]%Z.
Proof. eexists w4, _. split; [exact w4_good|]. split; [vm_compute; reflexivity|]. split; [vm_compute; reflexivity|]. splits; vm_compute; reflexivity. Qed.
Print Assumptions C79_refuted.

(** Missing: the points between the second store and the link.  At every point the slots, keys and values of the full
    leaf are all still there, the list holds nothing but old entries, and the leaves behind stay in it. *)
Theorem C79_partial : forall V M (l : wleaf V) hasNext,
  good_leaf M l -> w_count l = Ok M -> 2 <= M -> exists p a b,
  w_split_stores M l hasNext = Ok p /\ w_split M l = Ok (a, b) /\ forall q, exists st,
    wx_exec M (x_init l (w_new V M) hasNext) (firstn q p) = Ok st /\
    (length p <= q -> snode st = a /\ ssib st = b /\ nnext st = Some Sib) /\
    wk (snode st) = wk l /\ wv (snode st) = wv l /\ (forall i, 1 <= i -> aget (ws (snode st)) i = aget (ws l) i) /\
    (hasNext = true -> rest_listed st) /\
    (forall k v, list_reaches st k v -> stored M l k v) /\
    ((forall k v, stored M l k v -> list_reaches st k v) <-> q < 2 \/ length p - 2 < q).
Proof. intros V M. exact (@w_split_crash V M). Qed.
Print Assumptions C79_partial.
Example C79_ex : good_leaf 4 w4 /\ w_count w4 = Ok 4 /\ (do r <- w_split 4 w4; do x <- w_scan (fst r); do y <- w_scan (snd r); Ok (x, y))
  = Ok ([(10, 11); (20, 21)], [(30, 31); (40, 41)])%Z.
Proof. split; [exact w4_good|]. splits; vm_compute; reflexivity. Qed.
