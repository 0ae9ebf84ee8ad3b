(** C49, C51, C52: BitPBPTree (pbptrees/BitPBPTree.hpp), whole trees. *)
From Verif Require Import Base MapSpec RankModel BitmapModel BitmapProofs BTreeModel BTreeSpec FLeafModel BitTreeModel InsSpec BitProofs PropUnsorted.
Open Scope Z_scope.

(** * C49 *)

(** Four entries in one full leaf: the range scan over all of them reports nothing. *)
Theorem C49_refuted : exists os : list (Z * Z), m_run (map (fun e => OpInsert (fst e) (snd e)) os) 20 = Some 21 /\
  (do tr <- bt_run i32 4 4 (bt_new Z i32 4) os; bt_lookup i32 4 4 tr 20) = Ok (Some 21) /\
  (do tr <- bt_run i32 4 4 (bt_new Z i32 4) os; bt_range i32 4 4 tr 0 100) = Ok [].
Proof. exists [(10, 11); (20, 21); (30, 31); (40, 41)]. vm_compute. auto. Qed.
Print Assumptions C49_refuted.

(** A slot whose entry was moved to the sibling by a split is reported with its old value. *)
Theorem C49_stale_refuted : exists os : list (Z * Z), m_run (map (fun e => OpInsert (fst e) (snd e)) os) 50 = Some 99 /\
  (do tr <- bt_run i32 4 2 (bt_new Z i32 2) os; bt_lookup i32 4 2 tr 50) = Ok (Some 99) /\
  (do tr <- bt_run i32 4 2 (bt_new Z i32 2) os; bt_range i32 4 2 tr 0 100) = Ok [(50, 51)].
Proof. exists [(40, 41); (50, 51); (60, 61); (50, 99)]. vm_compute. auto. Qed.
Print Assumptions C49_stale_refuted.

(** * C51 *)

(** When the leftmost child is split its left half moves to a new slot of the branch node, and
    children[0], where scan starts, becomes the right half. *)
Theorem C51_refuted : exists os : list (Z * Z), m_run (map (fun e => OpInsert (fst e) (snd e)) os) 3 = Some 4 /\
  (do tr <- bt_run i32 4 4 (bt_new Z i32 4) os; bt_lookup i32 4 4 tr 3) = Ok (Some 4) /\
  (do tr <- bt_run i32 4 4 (bt_new Z i32 4) os; bt_scan i32 4 tr) = Ok [(30, 31); (20, 21); (50, 51); (40, 41)].
Proof. exists [(50, 51); (40, 41); (30, 31); (20, 21); (10, 11); (5, 6); (3, 4)]. vm_compute. auto. Qed.
Print Assumptions C51_refuted.

(** Inserts in ascending key order keep the leftmost leaf at children[0] of every level: there the scan
    reports every entry once.  Missing: the other orders, for which [C51_refuted] is a witness,
    and multiples of 64 for N ([C52_flip_refuted]). *)
Theorem C51_ascending_partial : forall V t (N M : nat) (os : list (Z * V)),
  1 <= kt_bits t <= 64 -> (2 <= N)%nat -> (N mod 64 <> 0)%nat -> (2 <= M)%nat -> (N.of_nat M < W)%N ->
  Forall (fun k => 0 <= k < kt_max t) (map fst os) -> ascending os ->
  exists tr out, bt_run t N M (bt_new V t M) os = Ok tr /\ bt_scan t M tr = Ok out /\
    enumerates (m_run (inserts os)) out /\ in_runs M out.
Proof.
  intros V t N M os Ht HN H64 HM HW HF HA. apply bt_scan_asc; auto.
  eapply Forall_impl; [|exact HF]. intros k Hk. now apply bkok_of.
Qed.
Print Assumptions C51_ascending_partial.

Lemma keys_b hi (ks : list Z) : forallb (fun k => (0 <=? k) && (k <? hi)) ks = true -> Forall (fun k => 0 <= k < hi) ks.
Proof. intros H. apply Forall_forall. intros k Hk. rewrite forallb_forall in H. specialize (H k Hk). lia. Qed.
Fixpoint asc_b (ks : list Z) : bool := match ks with [] => true | k :: r => forallb (fun x => k <=? x) r && asc_b r end.
Lemma asc_b_ok {V} (os : list (Z * V)) : asc_b (map fst os) = true -> ascending os.
Proof.
  unfold ascending. induction (map fst os) as [|k r IH]; cbn [asc_b]; intros H; constructor.
  - apply IH. now apply andb_prop in H.
  - apply andb_prop in H as [H _]. apply Forall_forall. intros x Hx. rewrite forallb_forall in H. specialize (H x Hx). lia.
Qed.
Definition asc_bit (n : nat) : list (Z * Z) := map (fun i => (Z.of_nat i * 7, Z.of_nat i)) (seq 0 n).
Example C51_ex : Forall (fun k => 0 <= k < kt_max i32) (map fst (asc_bit 40)) /\ ascending (asc_bit 40) /\
  (do tr <- bt_run i32 3 3 (bt_new Z i32 3) (asc_bit 40); do o <- bt_scan i32 3 tr; Ok (bdepth tr, length o, firstn 5 (map fst o)))
  = Ok (3%nat, 40%nat, [0; 7; 14; 21; 28]).
Proof. split; [apply keys_b; vm_compute; reflexivity|]. split; [apply asc_b_ok|]; vm_compute; reflexivity. Qed.

(** * C52 *)

(** Negative keys: the marks of findSplitKey are computed in std::size_t, so the branch split
    distributes the children wrongly. *)
Theorem C52_refuted : exists (os : list (Z * Z)) k v,
  m_run (map (fun e => OpInsert (fst e) (snd e)) os) k = Some v /\
  (do tr <- bt_run i32 2 2 (bt_new Z i32 2) os; bt_lookup i32 2 2 tr k) = Ok None.
Proof. exists [(1, 2); (2, 3); (3, 4); (-4, -3); (-3, -2); (-2, -1); (-1, 0); (0, 1)], (-4), (-3). vm_compute. auto. Qed.
Print Assumptions C52_refuted.

(** The largest value of KeyType as a separator is never selected by the branch search. *)
Theorem C52_max_refuted : exists (os : list (Z * Z)) k v,
  m_run (map (fun e => OpInsert (fst e) (snd e)) os) k = Some v /\
  (do tr <- bt_run i32 2 2 (bt_new Z i32 2) os; bt_lookup i32 2 2 tr k) = Ok None.
Proof. exists [(2147483646, 1); (2147483647, 2); (2147483645, 3)], 2147483646, 1. vm_compute. auto. Qed.
Print Assumptions C52_max_refuted.

(** With N a multiple of 64, splitBranchNode gives the new sibling [b.flip()], in which the last 64 bits
    are clear (C22): the separators of the right half are lost and its keys are not found. *)
Theorem C52_flip_refuted : exists (os : list (Z * Z)) k v, Forall (fun k => 0 <= k < kt_max i32) (map fst os) /\
  m_run (map (fun e => OpInsert (fst e) (snd e)) os) k = Some v /\
  (do tr <- bt_run i32 64 2 (bt_new Z i32 2) os; bt_lookup i32 64 2 tr k) = Ok None.
Proof. exists (asc_bit 70), 280, 40. split; [apply keys_b|split]; vm_compute; reflexivity. Qed.
Print Assumptions C52_flip_refuted.

(** The list of booleans stands for the words of the bitmap also under flip(). *)
Theorem C52_flip_model : forall n ws bs, (0 < n)%nat -> bm_ok n ws -> length bs = n ->
  (forall i, (i < n)%nat -> bm_test n ws i = of_opt (nth_error bs i)) ->
  exists ws', bm_flip n ws = Ok ws' /\ length (flip_bits bs) = n /\
    forall i, (i < n)%nat -> bm_test n ws' i = of_opt (nth_error (flip_bits bs) i).
Proof. exact flip_bits_words. Qed.
Print Assumptions C52_flip_model.
Example C52_flip_ex : (do w <- bm_set 70 (bm_new 70) 3 true; do w2 <- bm_set 70 w 65 true; bm_list 70 70 w2 0)
  = Ok (map (fun i => Nat.eqb i 3 || Nat.eqb i 65)%bool (seq 0 70)) /\ count_bits (flip_bits (map (fun i => Nat.eqb i 3) (seq 0 70))) = 69%nat /\
  count_bits (flip_bits (map (fun i => Nat.eqb i 3) (seq 0 64))) = 0%nat.
Proof. vm_compute. auto. Qed.

(** With keys from 0 up to but excluding the largest value of KeyType, insert never fails and lookup
    returns the entry of the map, at every size of tree.  Missing: negative keys,
    the largest key and multiples of 64 for N. *)
Theorem C52_bit_map_partial : forall V t (N M : nat) (os : list (Z * V)),
  1 <= kt_bits t <= 64 -> (2 <= N)%nat -> (N mod 64 <> 0)%nat -> (2 <= M)%nat -> (N.of_nat M < W)%N ->
  Forall (fun k => 0 <= k < kt_max t) (map fst os) ->
  exists tr, bt_run t N M (bt_new V t M) os = Ok tr /\
    forall k, 0 <= k < kt_max t -> bt_lookup t N M tr k = Ok (m_run (inserts os) k).
Proof.
  intros V t N M os Ht HN H64 HM HW HF. destruct (@bt_map V t N M Ht HN H64 HM HW os) as (tr & E & H).
  - eapply Forall_impl; [|exact HF]. intros k Hk. now apply bkok_of.
  - exists tr. split; auto. intros k Hk. apply H. now apply bkok_of.
Qed.
Print Assumptions C52_bit_map_partial.

Definition scr_bit (n : nat) : list (Z * Z) := map (fun i => ((Z.of_nat i * 37) mod 101, Z.of_nat i)) (seq 1 n).
Example C52_ex : Forall (fun k => 0 <= k < kt_max i32) (map fst (scr_bit 90)) /\
  (do tr <- bt_run i32 3 4 (bt_new Z i32 4) (scr_bit 90);
   do a <- bt_lookup i32 3 4 tr 37; do b <- bt_lookup i32 3 4 tr 36; do c <- bt_lookup i32 3 4 tr 98; Ok (bdepth tr, a, b, c))
  = Ok (3%nat, Some 1, Some 31, m_run (inserts (scr_bit 90)) 98).
Proof. split; [apply keys_b|]; vm_compute; reflexivity. Qed.
