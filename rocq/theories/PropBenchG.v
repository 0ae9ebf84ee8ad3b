(** C107-C109: the benchmarks of get, scan and traverse. *)
From Verif Require Import Base SearchModel BTreeModel SLeafModel BenchModel BenchLSpec BenchGModel BenchGProofs.
Open Scope nat_scope.

(** C107: insert(tree, 0) leaves a tree of one leaf, which is full, also where an odd LEAFKEYS makes it insert the middle key
    twice; the measured lookup finds every key from 1 to LEAFKEYS at its position. *)
Theorem C107_bench_get : forall V N M (f : nat -> V), 2 <= M -> forall E, M <= E -> exists t l,
  bg_tree N M f (bg_keys M E) = Ok t /\ bg_root t = Ok l /\ holds l (entries f (seq 1 M)) /\
  forall k, 1 <= k <= M -> bg_get l k = Ok (k - 1).
Proof. intros V N M f HM E H. exact (get_bench N f HM H). Qed.
Print Assumptions C107_bench_get.

(** Five keys per leaf, ELEMENTS 25: the keys inserted, the leaf, and where every key is found *)
Example C107_ex : bg_keys 5 25 = [1; 2; 3; 3; 4; 5] /\
  (do t <- bg_tree 4 5 (fun j => j * 100) (bg_keys 5 25); do l <- bg_root t; do a <- sl_scan l;
   do p1 <- bg_get l 1; do p3 <- bg_get l 3; do p5 <- bg_get l 5; Ok (a, [p1; p3; p5])) =
  Ok ([(1%Z, 100); (2%Z, 200); (3%Z, 300); (4%Z, 400); (5%Z, 500)], [0; 2; 4]).
Proof. vm_compute. split; reflexivity. Qed.

(** C108: the scan benchmark visits the keys 1 to ELEMENTS in order, so the key it keeps is ELEMENTS. *)
Theorem C108_bench_scan : forall V N M td (f : nat -> V), 2 <= M -> 3 <= N -> exists l t, bench_insert M N td = Ok l /\
  bg_tree N M f l = Ok t /\ t_scan (pbp_ops V M) t = Ok (entries f (seq 1 (M * (N + 1) ^ td))).
Proof. exact scan_bench. Qed.
Print Assumptions C108_bench_scan.
Theorem C108_bench_scan_last : forall V N M td (f : nat -> V), 2 <= M -> 3 <= N -> exists l t, bench_insert M N td = Ok l /\
  bg_tree N M f l = Ok t /\ bg_scan M t = Ok (Some (Z.of_nat (M * (N + 1) ^ td))).
Proof. exact scan_last. Qed.
Print Assumptions C108_bench_scan_last.

(** Leaves of 2 keys, branch nodes of 4: depth 1 *)
Example C108_ex : (do l <- bench_insert 2 4 1; do t <- bg_tree 4 2 (fun j => j) l; do o <- t_scan (pbp_ops nat 2) t; do k <- bg_scan 2 t;
    Ok (map fst o, k)) = Ok ([1; 2; 3; 4; 5; 6; 7; 8; 9; 10]%Z, Some 10%Z).
Proof. vm_compute. reflexivity. Qed.

(** C109: prepare makes TARGET_DEPTH levels of new nodes, all different, which are the root except for child 0, and leaves the tree
    as it was; the measured loop from copy [pos] of level 0 touches copy [pos] of every level, from the top down. *)
Theorem C109_bench_traverse : forall V N (h : heap (sleaf V)) root b n D,
  hb h root = Some b -> root < hfresh h -> bc b <> [] -> 1 <= D ->
  exists h' levels, bv_levels N h root n D [] = Ok (h', levels) /\ length levels = D /\ (forall l, In l levels -> length l = n) /\
    NoDup (concat levels) /\ (forall i, In i (concat levels) -> hfresh h <= i) /\
    hl h' = hl h /\ hnx h' = hnx h /\ hpv h' = hpv h /\ (forall i, i < hfresh h -> hb h' i = hb h i) /\
    (forall i, In i (concat levels) -> exists b', hb h' i = Some b' /\ bn b' = bn b /\ bk b' = bk b /\
       forall c, 1 <= c -> nth_error (bc b') c = nth_error (bc b) c) /\
    (forall pos, pos < n -> bv_walk h' D (nth pos (hd [] levels) 0) = Ok (map (fun l => nth pos l 0) levels)).
Proof. exact traverse_bench. Qed.
Print Assumptions C109_bench_traverse.
(** The tree of insert(tree, 1) meets the hypotheses. *)
Theorem C109_bench_traverse_tree : forall V N M (f : nat -> V), 2 <= M -> 3 <= N -> exists l t b, bench_insert M N 1 = Ok l /\
  bg_tree N M f l = Ok t /\ 1 <= tdepth t /\ hb (th t) (troot t) = Some b /\ troot t < hfresh (th t) /\ bc b <> [].
Proof. exact traverse_tree. Qed.
Print Assumptions C109_bench_traverse_tree.

(** Three levels of two copies: the levels, the nodes touched from copy 1, and number of keys and child 1 of these and of the root *)
Example C109_ex : (do l <- bench_insert 2 4 1; do t <- bg_tree 4 2 (fun j => j) l; do r <- bv_levels 4 (th t) (troot t) 2 3 [];
    let levels := map (map (fun i => i - hfresh (th t))) (snd r) in
    do w <- bv_walk (fst r) 3 (nth 1 (hd [] (snd r)) 0);
    Ok (levels, map (fun i => i - hfresh (th t)) w,
        map (fun i => match hb (fst r) i with Some b => (bn b, nth_error (bc b) 1) | None => (0, None) end) w,
        match hb (th t) (troot t) with Some b => (bn b, nth_error (bc b) 1) | None => (0, None) end)) =
  Ok ([[4; 5]; [2; 3]; [0; 1]], [5; 3; 1], [(1, Some (Some 7)); (1, Some (Some 7)); (1, Some (Some 7))], (1, Some (Some 7))).
Proof. vm_compute. reflexivity. Qed.
