(** Property theorems for the write-optimised skip list, woPSkiplist. *)
From Verif Require Import Base SearchModel RankModel BitmapModel MapSpec SortedList ULeafModel FLeafModel SkipSpec WoModel WoMain PropUtils.
From Coq Require Import Sorted.
Import ListNotations.
Open Scope nat_scope.

(** What a key, its value and the height drawn for it must satisfy. *)
Definition wo_op {V} (t : ktype) (M : nat) (o : Z * V * nat) : Prop := kt_in t (fst (fst o)) /\ (0 <= fst (fst o))%Z /\ snd o < M.

Ltac wo_ops := repeat (apply Forall_cons; [|]); try apply Forall_nil; repeat split; vm_compute; first [discriminate | lia].

(** C32: the list behaves as a map under inserts of keys that are not negative. *)
Theorem C32_wo_map (V : Type) (t : ktype) (N M : nat) (HN : 2 <= N) (HM : 2 <= M) (Ht : (1 <= kt_bits t <= 64)%Z) r0 (os : list (Z * V * nat)) :
  r0 < M -> Forall (wo_op t M) os ->
  exists s, (do s0 <- w_new V t N M r0; w_run t N M s0 os) = Ok s /\ (forall k, w_search N s k = Ok (puts os k)) /\
    forall k v r, wo_op t M (k, v, r) -> exists s' b, w_insert t N M s k v r = Ok (s', b) /\ (b = true <-> puts os k = None).
Proof. exact (@wo_map V t N M HN HM Ht r0 os). Qed.

Definition wo_hist : list (Z * nat * nat) := [(5%Z, 50, 1); (9%Z, 90, 2); (7%Z, 70, 0); (1%Z, 10, 3); (8%Z, 80, 1); (5%Z, 55, 2); (0%Z, 1, 4)].
Example C32_example : Forall (wo_op i32 5) wo_hist /\
  (do s0 <- w_new nat i32 2 5 3; do s <- w_run i32 2 5 s0 wo_hist; do a <- w_search 2 s 5%Z; do b <- w_search 2 s 8%Z; do c <- w_search 2 s 6%Z; Ok (a, b, c)) = Ok (Some 55, Some 80, None) /\
  puts wo_hist 5%Z = Some 55 /\ puts wo_hist 8%Z = Some 80 /\ puts wo_hist 6%Z = None.
Proof. split; [wo_ops|]. vm_compute. auto. Qed.

(** The hypotheses on N and M are needed: with one slot per node, the second insert runs a split whose accesses leave the arrays;
    with one level the first insert does the same with the forward array. *)
Theorem C32_one_slot_refuted : exists os : list (Z * nat * nat), Forall (wo_op i32 5) os /\
  (do s0 <- w_new nat i32 1 5 3; w_run i32 1 5 s0 os) = UB.
Proof. exists [(5%Z, 50, 1); (7%Z, 70, 1)]. split; [wo_ops|]. vm_compute. reflexivity. Qed.

Theorem C32_one_level_refuted : exists os : list (Z * nat * nat), Forall (wo_op i32 1) os /\
  (do s0 <- w_new nat i32 2 1 0; w_run i32 2 1 s0 os) = UB.
Proof. exists [(5%Z, 50, 0)]. split; [wo_ops|]. vm_compute. reflexivity. Qed.

(** C33: negative keys can be lost: a split takes its key from elementOfRankK, which misorders negative keys (C02). *)
Theorem C33_wo_negative_refuted : exists os : list (Z * nat * nat), Forall (fun o => kt_in i32 (fst (fst o)) /\ snd o < 5) os /\
  exists k, puts os k <> None /\ (do s0 <- w_new nat i32 2 5 3; do s <- w_run i32 2 5 s0 os; w_search 2 s k) = Ok None.
Proof. exists [((-5)%Z, 50, 1); (7%Z, 70, 2); (3%Z, 30, 4)]. split; [wo_ops|]. exists (-5)%Z. vm_compute. split; [discriminate|reflexivity]. Qed.

(** C59: after a power failure inside an insert, searches find the old or the new contents — except in the middle of a split. *)
Theorem C59_wo_crash_partial (V : Type) (t : ktype) (N M : nat) (HN : 2 <= N) (HM : 2 <= M) (Ht : (1 <= kt_bits t <= 64)%Z) r0 (os : list (Z * V * nat)) s :
  r0 < M -> Forall (wo_op t M) os -> (do s0 <- w_new V t N M r0; w_run t N M s0 os) = Ok s ->
  forall k v r, wo_op t M (k, v, r) -> exists b p, w_insert_stores t N M s k v r = Ok (b, p) /\
    forall n, (forall x, ~ In (WAlloc x) p) \/ n <= 1 \/ 6 <= n ->
    exists s', w_crash t N M s k v r n = Ok s' /\
      ((forall x, kt_in t x -> w_search N s' x = w_search N s x) \/
       (forall x, kt_in t x -> w_search N s' x = if (x =? k)%Z then Ok (Some v) else w_search N s x)).
Proof. exact (@wo_crash V t N M HN HM Ht r0 os s). Qed.

Example C59_example : 
  (do s0 <- w_new nat i32 2 5 3; do s <- w_run i32 2 5 s0 [(5%Z, 50, 1); (7%Z, 70, 1)];
   do a <- w_crash i32 2 5 s 6%Z 60 2 1; do b <- w_crash i32 2 5 s 6%Z 60 2 20;
   do x <- w_search 2 a 6%Z; do y <- w_search 2 b 6%Z; do z <- w_search 2 a 7%Z; Ok (x, y, z)) = Ok (None, Some 60, Some 70).
Proof. vm_compute. reflexivity. Qed.

(** In the middle of a split an entry inserted earlier is gone. *)
Theorem C59_wo_crash_refuted : exists (os : list (Z * nat * nat)) k v r n x, Forall (wo_op i32 5) os /\ wo_op i32 5 (k, v, r) /\ x <> k /\
  puts os x <> None /\
  (do s0 <- w_new nat i32 2 5 3; do s <- w_run i32 2 5 s0 os; do s' <- w_crash i32 2 5 s k v r n; w_search 2 s' x) = Ok None.
Proof.
  exists [(5%Z, 50, 1); (7%Z, 70, 1)], 6%Z, 60, 2, 2, 7%Z.
  split; [wo_ops|]. split; [wo_ops|]. split; [discriminate|]. split; [vm_compute; discriminate|]. vm_compute. reflexivity.
Qed.

(** Cut off between the occupancy bit and the node's bound, an entry is invisible, and repeating the insert reports a duplicate and stores nothing visible. *)
Theorem C59_wo_retry_refuted : exists (os : list (Z * nat * nat)) k v r n, Forall (wo_op i32 5) os /\ wo_op i32 5 (k, v, r) /\
  (do s0 <- w_new nat i32 4 5 3; do s <- w_run i32 4 5 s0 os; do s' <- w_crash i32 4 5 s k v r n;
   do x <- w_insert i32 4 5 s' k v r; do y <- w_search 4 (fst x) k; Ok (snd x, y)) = Ok (false, None).
Proof.
  exists [(5%Z, 50, 1)], 7%Z, 70, 1, 2. split; [wo_ops|]. split; [wo_ops|]. vm_compute. reflexivity.
Qed.

(** C60: the bottom row of printList shows every entry once, in ascending nodes, with exact bounds and counts. *)
Theorem C60_wo_print (V : Type) (t : ktype) (N M : nat) (HN : 2 <= N) (HM : 2 <= M) (Ht : (1 <= kt_bits t <= 64)%Z) (HW : (BinNat.N.of_nat N < W)%N) r0 (os : list (Z * V * nat)) s :
  r0 < M -> Forall (wo_op t M) os -> (do s0 <- w_new V t N M r0; w_run t N M s0 os) = Ok s ->
  exists rows, w_print_row N s 0 = Ok rows /\
    Forall (fun '(mn, mx, n, ks) => n = BinNat.N.of_nat (length ks) /\ length ks <= N /\ NoDup ks /\
       (ks = [] -> os = []) /\ (ks <> [] -> In mn ks /\ In mx ks /\ Forall (fun x => mn <= x <= mx)%Z ks)) rows /\
    StronglySorted (fun a b => forall x y, In x (snd a) -> In y (snd b) -> (x < y)%Z) rows /\
    forall k, (exists r, In r rows /\ In k (snd r)) <-> puts os k <> None.
Proof. exact (@wo_print V t N M HN HM Ht HW r0 os s). Qed.

Example C60_example : (do s0 <- w_new nat i32 2 5 3; do s <- w_run i32 2 5 s0 wo_hist; w_print_row 2 s 0) =
  Ok [(0%Z, 1%Z, 2%N, [0%Z; 1%Z]); (5%Z, 5%Z, 1%N, [5%Z]); (7%Z, 7%Z, 1%N, [7%Z]); (8%Z, 9%Z, 2%N, [9%Z; 8%Z])].
Proof. vm_compute. reflexivity. Qed.

Print Assumptions C32_wo_map.
Print Assumptions C32_one_slot_refuted.
Print Assumptions C32_one_level_refuted.
Print Assumptions C33_wo_negative_refuted.
Print Assumptions C59_wo_crash_partial.
Print Assumptions C59_wo_crash_refuted.
Print Assumptions C59_wo_retry_refuted.
Print Assumptions C60_wo_print.
