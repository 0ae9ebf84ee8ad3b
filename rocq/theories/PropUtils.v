(** C20-C28: utils/Bitmap.hpp, utils/Random.hpp, utils/SearchFunctions.hpp. *)
From Verif Require Import Base SortedList SearchModel SearchProofs RankModel RankProofs
  BitmapModel BitmapProofs PopcountProofs UtilSpec.
From Coq Require Import NArith Sorting.Sorted.
Open Scope nat_scope.

(** * C20: after any history of valid operations the bitmap shows the last written bits. *)
Theorem C20_bitmap : forall n os, (n mod 64 <> 0)%nat -> (N.of_nat n < 2 ^ 64)%N -> Forall (bm_valid n) os ->
  exists ws, bm_run n (bm_new n) os = Ok ws /\
    (forall i, (i < n)%nat -> bm_test n ws i = Ok (f_run os i)) /\
    (forall i, (n <= i)%nat -> bm_test n ws i = UB) /\
    bm_count ws = N.of_nat (length (filter (f_run os) (seq 0 n))) /\
    bm_all n ws = Ok (forallb (f_run os) (seq 0 n)).
Proof.
  intros n os H1 H2 H3. destruct (bm_main H1 H2 H3) as (ws & A & B & C & D & E & _). exists ws. auto.
Qed.
Print Assumptions C20_bitmap.

(** The same for every n if the whole-map operations flip() and set() are not used. *)
Theorem C20_bitmap_single : forall n os, (0 < n)%nat -> (N.of_nat n < 2 ^ 64)%N ->
  Forall (bm_valid n) os -> Forall single os ->
  exists ws, bm_run n (bm_new n) os = Ok ws /\
    (forall i, (i < n)%nat -> bm_test n ws i = Ok (f_run os i)) /\
    bm_count ws = N.of_nat (length (filter (f_run os) (seq 0 n))) /\
    bm_all n ws = Ok (forallb (f_run os) (seq 0 n)).
Proof.
  intros n os H1 H2 H3 H4. destruct (bm_main_single H1 H2 H3 H4) as (ws & A & B & C & D & _). exists ws. auto.
Qed.
Print Assumptions C20_bitmap_single.

(** The word-level bit count, for every 64-bit word. *)
Theorem C20_popcount : forall w, (w < 2 ^ 64)%N ->
  popcount w = N.of_nat (length (filter (fun i => N.testbit w (N.of_nat i)) (seq 0 64))).
Proof. intros w H. rewrite (popcount_ok H), <- cnt_nbits. reflexivity. Qed.
Print Assumptions C20_popcount.

Definition ex_bm : list bmop := [BSet 3 true; BSet 69 true; BFlip; BReset 5; BSet 3 true; BSet 64 false].
Example C20_ex : Forall (bm_valid 70) ex_bm /\
  (do ws <- bm_run 70 (bm_new 70) ex_bm;
   do a <- bm_test 70 ws 3; do b <- bm_test 70 ws 5; do c <- bm_test 70 ws 69; Ok (a, b, c, bm_count ws))
  = Ok (true, false, false, 67%N).
Proof. split; [repeat constructor; cbn; lia|vm_compute; reflexivity]. Qed.

(** * C21 *)
Theorem C21_getFreeZero : forall n os, (n mod 64 <> 0)%nat -> (N.of_nat n < 2 ^ 64)%N -> Forall (bm_valid n) os ->
  exists ws r, bm_run n (bm_new n) os = Ok ws /\ getFreeZero ws = Ok r /\ (r <= n)%nat /\
    (forall j, (j < r)%nat -> f_run os j = true) /\ ((r < n)%nat -> f_run os r = false).
Proof.
  intros n os H1 H2 H3. destruct (bm_main H1 H2 H3) as (ws & A & _ & _ & _ & _ & (r & B) & _). exists ws, r. auto.
Qed.
Print Assumptions C21_getFreeZero.

Theorem C21_getFreeZero_single : forall n os, (0 < n)%nat -> (N.of_nat n < 2 ^ 64)%N ->
  Forall (bm_valid n) os -> Forall single os ->
  exists ws r, bm_run n (bm_new n) os = Ok ws /\ getFreeZero ws = Ok r /\ (r <= n)%nat /\
    (forall j, (j < r)%nat -> f_run os j = true) /\ ((r < n)%nat -> f_run os r = false).
Proof.
  intros n os H1 H2 H3 H4. destruct (bm_main_single H1 H2 H3 H4) as (ws & A & _ & _ & _ & (r & B) & _). exists ws, r. auto.
Qed.
Print Assumptions C21_getFreeZero_single.

(** For every n and every contents (any word list whose bits from n on are clear). *)
Theorem C21_getFreeZero_contents : forall n ws, bm_ok n ws ->
  exists r, getFreeZero ws = Ok r /\ (r <= n)%nat /\
    (forall j, (j < r)%nat -> bit ws j = true) /\ ((r < n)%nat -> bit ws r = false).
Proof. exact getFreeZero_ok. Qed.
Print Assumptions C21_getFreeZero_contents.

(** getFirstSet finds the smallest set bit; on an empty map it returns n rounded up to a
    multiple of 64 (not n). *)
Theorem C21_getFirstSet_partial : forall n os, (n mod 64 <> 0)%nat -> (N.of_nat n < 2 ^ 64)%N -> Forall (bm_valid n) os ->
  exists ws r, bm_run n (bm_new n) os = Ok ws /\ getFirstSet ws = Ok r /\
    (((r < n)%nat /\ f_run os r = true /\ forall j, (j < r)%nat -> f_run os j = false) \/
     r = (64 * ((n + 63) / 64))%nat /\ forall j, (j < n)%nat -> f_run os j = false).
Proof.
  intros n os H1 H2 H3. destruct (bm_main H1 H2 H3) as (ws & A & _ & _ & _ & _ & _ & (r & B)). exists ws, r.
  unfold num_words in B. rewrite <- Nat.add_sub_assoc in B by lia. auto.
Qed.
Print Assumptions C21_getFirstSet_partial.

Theorem C21_getFirstSet_refuted : exists n, (n mod 64 <> 0)%nat /\
  exists r, getFirstSet (bm_new n) = Ok r /\ r <> n.
Proof. exists 5%nat. split; [discriminate|]. exists 64%nat. split; [vm_compute; reflexivity|discriminate]. Qed.
Print Assumptions C21_getFirstSet_refuted.

Example C21_ex : (do ws <- bm_run 70 (bm_new 70) ex_bm; do a <- getFreeZero ws; do b <- getFirstSet ws; Ok (a, b))
  = Ok (5, 0)%nat /\
  (do ws <- bm_run 70 (bm_new 70) [BSetAll]; do a <- getFreeZero ws; do b <- getFirstSet ws; Ok (a, b)) = Ok (70, 0)%nat.
Proof. split; vm_compute; reflexivity. Qed.

(** * C22: for every multiple of 64, set() and flip() leave the last 64 bits clear. *)
Theorem C22_set_all_refuted : forall n ws, (0 < n)%nat -> (n mod 64 = 0)%nat -> bm_ok n ws ->
  exists ws', bm_set_all n ws = Ok ws' /\ forall i, (n - 64 <= i < n)%nat -> bit ws' i = false.
Proof. exact set_all_64. Qed.
Print Assumptions C22_set_all_refuted.
Theorem C22_flip_refuted : forall n ws, (0 < n)%nat -> (n mod 64 = 0)%nat -> bm_ok n ws ->
  exists ws', bm_flip n ws = Ok ws' /\ forall i, (n - 64 <= i < n)%nat -> bit ws' i = false.
Proof. exact flip_64. Qed.
Print Assumptions C22_flip_refuted.
(** What flip() does at every size. *)
Theorem C22_flip_exact : forall n ws, (0 < n)%nat -> bm_ok n ws ->
  exists ws', bm_flip n ws = Ok ws' /\ bm_ok n ws' /\
    forall i, (i < n)%nat -> bit ws' i = if (n mod 64 =? 0)%nat && (n - 64 <=? i)%nat then false else negb (bit ws i).
Proof. exact flip_exact. Qed.
Print Assumptions C22_flip_exact.
Theorem C22_refuted : exists n, (do ws <- bm_set_all n (bm_new n); bm_test n ws 0) = Ok false /\
  (do ws <- bm_flip n (bm_new n); bm_test n ws 0) = Ok false.
Proof. exists 64%nat. split; vm_compute; reflexivity. Qed.
Print Assumptions C22_refuted.
Example C22_ex : bm_ok 128 (bm_new 128). Proof. apply bm_new_ok. Qed.
Example C22_flip_ex : (do ws <- bm_flip 128 (bm_new 128); do a <- bm_test 128 ws 63; do b <- bm_test 128 ws 64; Ok (a, b)) = Ok (true, false).
Proof. vm_compute. reflexivity. Qed.

(** * C23 *)
Theorem C23_random : forall s k, let st := Nat.iter k rnd_next (rnd_new s) in
  (rnd_next st = (16807 * st) mod (2 ^ 31 - 1) /\ 1 <= rnd_next st <= 2 ^ 31 - 2 /\
  (forall n, 0 < n -> exists v, rnd_uniform st n = Ok (v, rnd_next st) /\ v < n) /\
  (forall n, 0 < n -> rnd_onein st n = Ok (rnd_next st mod n =? 0, rnd_next st)))%N.
Proof. exact rnd_main. Qed.
Print Assumptions C23_random.
Theorem C23_skewed : forall s k m, (m <= 30)%N ->
  exists v st', rnd_skewed (Nat.iter k rnd_next (rnd_new s)) m = Ok (v, st') /\ (v < 2 ^ m)%N /\ (1 <= st' <= 2 ^ 31 - 2)%N.
Proof. exact rnd_skewed_ok. Qed.
Print Assumptions C23_skewed.
Example C23_ex : Nat.iter 3 rnd_next (rnd_new 2147483647) = 1622650073%N /\
  rnd_uniform (rnd_new 42) 10 = Ok (4, 705894)%N.
Proof. split; vm_compute; reflexivity. Qed.

(** * C24 *)
Theorem C24_binary_search : forall isBranch ks rest key, StronglySorted Z.lt ks ->
  bsearch_pos isBranch (map Some ks ++ rest) (length ks) key
  = Ok (length (filter (fun k => if isBranch then k <=? key else k <? key)%Z ks)).
Proof. exact bsearch_count. Qed.
Print Assumptions C24_binary_search.
Example C24_ex : bsearch_pos true (map Some [1; 4; 9; 16; 25]%Z ++ anew 3) 5 9 = Ok 3 /\
  bsearch_pos false (map Some [1; 4; 9; 16; 25]%Z ++ anew 3) 5 10 = Ok 3 /\ bsearch_pos false (anew 3) 0 10 = Ok 0.
Proof. repeat split; vm_compute; reflexivity. Qed.

(** * C25: [slots[1..n]] lists positions of [keys] in ascending key order. *)
Theorem C25_slot_search : forall isBranch ks keys slots key, StronglySorted Z.lt ks ->
  aget slots 0 = Ok (length ks) ->
  (forall i k, nth_error ks i = Some k -> exists s, aget slots (S i) = Ok s /\ aget keys s = Ok k) ->
  sbsearch_pos isBranch keys slots key
  = Ok (S (length (filter (fun k => if isBranch then k <=? key else k <? key)%Z ks))).
Proof. intros isBranch ks keys slots key H1 H2 H3. exact (sbsearch_count isBranch key H1 (conj H2 H3)). Qed.
Print Assumptions C25_slot_search.
Example C25_ex : sbsearch_pos false (map Some [30; 10; 20]%Z ++ anew 1) (map Some [3; 1; 2; 0] ++ anew 1) 20 = Ok 2 /\
  sbsearch_pos true (map Some [30; 10; 20]%Z ++ anew 1) (map Some [3; 1; 2; 0] ++ anew 1) 25 = Ok 3.
Proof. split; vm_compute; reflexivity. Qed.

(** * C26 *)
Theorem C26_rank : forall t k data, (1 <= kt_bits t <= 64)%Z -> NoDup data ->
  (forall d, In d data -> kt_in t d /\ 0 <= d)%Z -> (1 <= k <= length data)%nat ->
  exists x, elementOfRankK (S (length data)) t k data = Ok x /\ In x data /\
    length (filter (fun y => y <? x)%Z data) = (k - 1)%nat.
Proof.
  intros t k data Hb ND HK Hk.
  destruct (@elementOfRankK_ok t Hb (S (length data)) k data) as (x & E & HI & HR); auto.
  { intros d Hd. now apply HK. }
  exists x. rewrite (@to_size_nonneg t x) in E by (auto; now apply HK). auto.
Qed.
Print Assumptions C26_rank.
(** With signed keys the selected element is still the right one (converted to size_t). *)
Theorem C26_rank_signed : forall t k data, (1 <= kt_bits t <= 64)%Z -> NoDup data ->
  (forall d, In d data -> kt_in t d) -> (1 <= k <= length data)%nat ->
  exists x, elementOfRankK (S (length data)) t k data = Ok (x mod 2 ^ 64)%Z /\ In x data /\
    length (filter (fun y => y <? x)%Z data) = (k - 1)%nat.
Proof. intros t k data Hb ND HK Hk. exact (elementOfRankK_ok Hb (Nat.lt_succ_diag_r _) ND HK Hk). Qed.
Print Assumptions C26_rank_signed.
Theorem C26_findSplitKey : forall t data, (1 <= kt_bits t <= 64)%Z -> (2 <= length data)%nat -> NoDup data ->
  (forall d, In d data -> kt_in t d /\ 0 <= d)%Z ->
  exists x pos, findSplitKey t data = Ok (map (fun d => d <? x)%Z data, pos) /\
    nth_error data pos = Some x /\ length (filter (fun y => y <? x)%Z data) = ((length data + 1) / 2)%nat.
Proof. exact findSplitKey_nonneg. Qed.
Print Assumptions C26_findSplitKey.
Definition i32 : ktype := {| kt_signed := true; kt_bits := 32 |}.
Definition u64 : ktype := {| kt_signed := false; kt_bits := 64 |}.
Example C26_ex : findSplitKey i32 [5; 3; 9; 1; 7; 12; 44; 2; 30; 31; 17]%Z =
  Ok ([true; true; true; true; true; false; false; true; false; false; false], 5) /\
  elementOfRankK 12 i32 3 [5; 3; 9; 1; 7; 12; 44; 2; 30; 31; 17]%Z = Ok 3%Z.
Proof. split; vm_compute; reflexivity. Qed.
(** One element is too few: rank 2 of one key. *)
Example C26_one_key : findSplitKey i32 [7]%Z = UB. Proof. vm_compute; reflexivity. Qed.

(** * C27: with a negative key the marks are wrong (the position is still right). *)
Theorem C27_refuted : exists data, NoDup data /\ (forall d, In d data -> kt_in i32 d) /\
  exists bits pos x, findSplitKey i32 data = Ok (bits, pos) /\ nth_error data pos = Some x /\
    bits <> map (fun d => d <? x)%Z data.
Proof.
  exists [-5; 3; 9; 1]%Z. splits.
  - repeat constructor; cbn; intuition discriminate.
  - intros d Hd. cbn in Hd. unfold kt_in, kt_min, kt_max. cbn. intuition (subst; discriminate).
  - exists [false; false; false; true], 1, 3%Z. splits; vm_compute; try reflexivity; discriminate.
Qed.
Print Assumptions C27_refuted.
Theorem C27_position_partial : forall t data, (1 <= kt_bits t <= 64)%Z -> (2 <= length data)%nat -> NoDup data ->
  (forall d, In d data -> kt_in t d) ->
  exists bits x pos, findSplitKey t data = Ok (bits, pos) /\ nth_error data pos = Some x /\
    length (filter (fun y => y <? x)%Z data) = ((length data + 1) / 2)%nat.
Proof.
  intros t data H1 H2 H3 H4. destruct (findSplitKey_ok H1 H2 H3 H4) as (x & pos & E & F). exists (map (fun d => to_size d <? to_size x)%Z data), x, pos. auto.
Qed.
Print Assumptions C27_position_partial.

(** * C28 *)
Theorem C28_min : forall xs rest, xs <> [] ->
  exists pos m, findMinKeyPos (map Some xs ++ rest) (length xs) = Ok pos /\ nth_error xs pos = Some m /\
    (forall y, In y xs -> m <= y)%Z.
Proof. intros xs rest H. exact (findMinKeyPos_ok eq_refl H). Qed.
Print Assumptions C28_min.
Theorem C28_max : forall xs rest, xs <> [] ->
  exists pos m, findMaxKeyPos (map Some xs ++ rest) (length xs) = Ok pos /\ nth_error xs pos = Some m /\
    (forall y, In y xs -> y <= m)%Z.
Proof. intros xs rest H. exact (findMaxKeyPos_ok eq_refl H). Qed.
Print Assumptions C28_max.
(** With a bitmap, if no live key is the extreme value of the key type. *)
Theorem C28_min_bitmap : forall t keys bits N, bits_ok keys bits N ->
  (forall i k, live keys bits i k -> kt_in t k /\ k < kt_max t)%Z -> (exists i k, live keys bits i k) ->
  exists pos m, findMinKeyPosB t keys bits N = Ok pos /\ live keys bits pos m /\
    (forall i k, live keys bits i k -> m <= k)%Z.
Proof. exact findMinKeyPosB_ok. Qed.
Print Assumptions C28_min_bitmap.
Theorem C28_max_bitmap : forall t keys bits N, bits_ok keys bits N ->
  (forall i k, live keys bits i k -> kt_in t k /\ kt_min t < k)%Z -> (exists i k, live keys bits i k) ->
  exists pos m, findMaxKeyPosB t keys bits N = Ok pos /\ live keys bits pos m /\
    (forall i k, live keys bits i k -> k <= m)%Z.
Proof. exact findMaxKeyPosB_ok. Qed.
Print Assumptions C28_max_bitmap.
Theorem C28_next_greater : forall t keys bits N key, bits_ok keys bits N ->
  (forall i k, live keys bits i k -> kt_in t k /\ k < kt_max t)%Z ->
  exists pos, findMinKeyPosGreaterThan t keys bits N key = Ok pos /\
    ((exists m, live keys bits pos m /\ key < m /\ forall i k, live keys bits i k -> key < k -> m <= k)
     \/ pos = N /\ forall i k, live keys bits i k -> k <= key)%Z.
Proof. exact findMinKeyPosGreaterThan_ok. Qed.
Print Assumptions C28_next_greater.
Theorem C28_next_smaller : forall t keys bits N key, bits_ok keys bits N ->
  (forall i k, live keys bits i k -> kt_in t k /\ kt_min t < k)%Z ->
  exists pos, findMaxKeyPosSmallerThan t keys bits N key = Ok pos /\
    ((exists m, live keys bits pos m /\ m < key /\ forall i k, live keys bits i k -> k < key -> k <= m)
     \/ pos = N /\ forall i k, live keys bits i k -> key <= k)%Z.
Proof. exact findMaxKeyPosSmallerThan_ok. Qed.
Print Assumptions C28_next_smaller.
(** The guard is needed: unsigned key 0 as the only live key is not found as the maximum. *)
Theorem C28_max_zero_refuted : exists keys bits, bits_ok keys bits 2 /\
  live keys bits 1 0%Z /\ kt_in u64 0%Z /\
  findMaxKeyPosB u64 keys bits 2 = Ok 0 /\ nth_error bits 0 = Some false.
Proof.
  exists [None; Some 0%Z], [false; true]. splits; try reflexivity; try (cbn; lia).
  - unfold bits_ok. splits; auto. intros [|[|i]] H; cbn in H; try discriminate; [eexists; reflexivity|destruct i; discriminate].
  - split; reflexivity.
  - vm_compute; split; discriminate.
Qed.
Print Assumptions C28_max_zero_refuted.
Example C28_ex : findMinKeyPosGreaterThan i32 [Some 40; Some 10; None; Some 30; Some 20]%Z [true; true; false; false; true] 5 15 = Ok 4 /\
  findMinKeyPosGreaterThan i32 [Some 40; Some 10; None; Some 30; Some 20]%Z [true; true; false; false; true] 5 40 = Ok 5 /\
  findMaxKeyPosB i32 [Some 40; Some 10; None; Some 30; Some 20]%Z [true; true; false; false; true] 5 = Ok 0 /\
  findMinKeyPos (map Some [5; 2; 8]%Z ++ anew 2) 3 = Ok 1.
Proof. repeat split; vm_compute; reflexivity. Qed.
