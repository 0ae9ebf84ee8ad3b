(** Property theorems for the skip list benchmarks, bench/pskiplists. *)
From Verif Require Import Base RankModel BitmapModel ULeafModel WoModel BenchModel BenchSModel BenchSProofs PropUtils.
Import ListNotations.
Open Scope nat_scope.

(** The two lists agree but for the content of node [p]. *)
Definition differs_at {V} (p : nat) (s s' : wlist V) : Prop :=
  length (wnodes s') = length (wnodes s) /\ wheight s' = wheight s /\ wcount s' = wcount s /\
  forall b, b <> p -> nth_error (wnodes s') b = nth_error (wnodes s) b.
(** Node [p] is full and holds the keys 1..N, each with its value. *)
Definition all_keys {V} (N : nat) (f : Z -> V) (p : nat) (s : wlist V) : Prop :=
  exists y, nth_error (wnodes s) p = Some y /\ bm_all N (wb (wc y)) = Ok true /\
    forall k, w_search_in N (wc y) k = Ok (if (1 <=? k) && (k <=? Z.of_nat N) then Some (f k) else None)%Z.

(** C105: for TARGET_KEY first, last or middle, every round inserts the missing key into a copy without a split,
    and the reset restores the state before the round; so any number of rounds on any copies measures the same insert.
    For two slots per node two case labels of prepare coincide, so the benchmark compiles only for 3 <= N. *)
Theorem C105_bench_skip_insert (V : Type) (t : ktype) (N M : nat) (f : Z -> V) (g : Z -> nat) (HN : 3 <= N) (HM : 2 <= M) (Ht : (1 <= kt_bits t <= 64)%Z) r0 n T :
  r0 < M -> kt_in t (Z.of_nat N) -> T = 1 \/ T = N \/ T = (N + 1) / 2 ->
  exists s, (do s <- sb_list t N M f g r0 (sb_prepare N T); sb_copies s n) = Ok s /\ length (wnodes s) = 2 + n /\
    forall picks, Forall (fun i => i < n) picks -> exists ms, sb_rounds t N M f s T picks = Ok (s, ms) /\
      Forall2 (fun i '(split, s1) => split = false /\ differs_at (2 + i) s s1 /\ all_keys N f (2 + i) s1) picks ms.
Proof.
  intros Hr K HT. destruct (@insert_rounds V t N M f g ltac:(lia) HM Ht r0 n T HN Hr K HT) as (s & E & L & H). exists s. split; [exact E|]. split; [exact L|].
  intros picks F. destruct (H picks F) as (ms & Em & FM). exists ms. split; [exact Em|].
  clear Em F. induction FM as [|i [b s1] picks ms (A & B & C) _ IH]; constructor; [|exact IH]. split; [exact A|]. split; [exact B|exact C].
Qed.
Print Assumptions C105_bench_skip_insert.

Example C105_ex : (do s <- sb_list u64 5 4 (fun k => k) (fun _ => 0) 2 (sb_prepare 5 3); do s <- sb_copies s 2; do r <- sb_rounds u64 5 4 (fun k => k) s 3 [1; 0; 1];
    do rows <- w_print_row 5 s 0; Ok (length (wnodes s), map fst (snd r), rows)) = Ok (4, [false; false; false], [(1%Z, 5%Z, 4%N, [1; 2; 4; 5]%Z)]).
Proof. vm_compute. reflexivity. Qed.
(** Without the reset the second insert of the same key splits the copy. *)
Example C105_no_reset : (do s <- sb_list u64 5 4 (fun k => k) (fun _ => 0) 2 (sb_prepare 5 3); do s <- sb_copies s 2;
    do a <- sb_measure u64 5 4 (fun k => k) s 1 3; do b <- sb_measure u64 5 4 (fun k => k) (snd a) 1 3; Ok (fst a, fst b)) = Ok (false, true).
Proof. vm_compute. reflexivity. Qed.

(** The switch in prepare knows only these three keys: for every other key the prepared node is empty. *)
Theorem C105_bench_skip_target (N : nat) (HN : 3 <= N) T : length (sb_prepare N T) = N - 1 <-> T = 1 \/ T = N \/ T = (N + 1) / 2.
Proof.
  rewrite (@prepare_len nat N 2 (fun _ => 0) (fun _ => 0) ltac:(lia) ltac:(lia) T HN). destruct (Nat.eqb_spec T 1), (Nat.eqb_spec T N), (Nat.eqb_spec T ((N + 1) / 2)); cbn [orb]; try tauto. split; [lia|tauto].
Qed.
Print Assumptions C105_bench_skip_target.
Theorem C105_bench_skip_target_refuted : exists N T s, wo_node_keys 8 16 16 5 4096 = Ok N /\ 1 <= T <= N /\
  (do s <- sb_list u64 N 5 (fun k => k) (fun _ => 0) 2 (sb_prepare N T); sb_copies s 1) = Ok s /\
  exists s1 y, sb_measure u64 N 5 (fun k => k) s 0 T = Ok (false, s1) /\ nth_error (wnodes s1) 2 = Some y /\ bm_count (wb (wc y)) = 1%N.
Proof.
  exists 165, 2. eexists. split; [vm_compute; reflexivity|]. split; [lia|]. split; [vm_compute; reflexivity|].
  eexists _, _. split; [vm_compute; reflexivity|]. split; [vm_compute; reflexivity|]. vm_compute. reflexivity.
Qed.
Print Assumptions C105_bench_skip_target_refuted.

(** C106: the get benchmark reads a key that every copy holds. *)
Theorem C106_bench_skip_get (V : Type) (t : ktype) (N M : nat) (f : Z -> V) (g : Z -> nat) (HN : 2 <= N) (HM : 2 <= M) (Ht : (1 <= kt_bits t <= 64)%Z) r0 n :
  r0 < M -> kt_in t (Z.of_nat N) ->
  exists s, (do s <- sb_list t N M f g r0 (sb_fill N); sb_copies s n) = Ok s /\ length (wnodes s) = 2 + n /\
    forall i T, i < n -> sb_get N s i T = Ok (if (1 <=? T) && (T <=? N) then Some (f (Z.of_nat T)) else None).
Proof. exact (@get_rounds V t N M f g HN HM Ht r0 n). Qed.
Print Assumptions C106_bench_skip_get.

Example C106_ex : kt_in u64 (Z.of_nat 5) /\ (do s <- sb_list u64 5 4 (fun k => (k * 100)%Z) (fun _ => 0) 2 (sb_fill 5); do s <- sb_copies s 2;
    do a <- sb_get 5 s 1 5; do b <- sb_get 5 s 1 6; Ok (a, b)) = Ok (Some 500%Z, None).
Proof. split; [split; vm_compute; discriminate|]. vm_compute. reflexivity. Qed.
