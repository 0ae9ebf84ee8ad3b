(** C99: the tree that the fill loops of the benchmarks build. *)
From Verif Require Import Base MapSpec BTreeModel BTreeSpec SLeafModel BenchModel BenchTSpec BenchTProofs.
Open Scope nat_scope.

(** For any capacities and depths: the loops leave a right PBPTree with the keys 1 to ELEMENTS; it has at least the wanted
    depth, and if it has the wanted depth all of its nodes are full.
    Missing from the claim: that it has the wanted depth (refuted). *)
Theorem C99_bench_tree_partial : forall V N M td (f : nat -> V) (O := pbp_ops V M), 2 <= M -> 3 <= N ->
  exists l t, bench_insert M N td = Ok l /\ t_run N M O (t_new O) (map bop_of (fill_ops f l)) = Ok t /\
  (forall k, t_lookup O t k = Ok (if (1 <=? k)%Z && (k <=? Z.of_nat (M * (N + 1) ^ td))%Z then Some (f (Z.to_nat k)) else None)) /\
  td <= tdepth t /\ (tdepth t = td -> full N M O (th t) td (troot t)).
Proof. exact bench_tree. Qed.
Print Assumptions C99_bench_tree_partial.

Definition bt_shape (N M td : nat) : res (nat * list nat) :=
  let O := pbp_ops nat M in
  do l <- bench_insert M N td;
  do t <- t_run N M O (t_new O) (map bop_of (fill_ops (fun x => x) l));
  Ok (tdepth t, flat_map (fun i => match hl (th t) i with Some x => [sn x] | None => [] end) (seq 0 100)).

Lemma bt_depth : forall N M td l t d x, bench_insert M N td = Ok l ->
  t_run N M (pbp_ops nat M) (t_new (pbp_ops nat M)) (map bop_of (fill_ops (fun x => x) l)) = Ok t ->
  bt_shape N M td = Ok (d, x) ->
  (do l <- bench_insert M N td; t_run N M (pbp_ops nat M) (t_new (pbp_ops nat M)) (map bop_of (fill_ops (fun x => x) l))) = Ok t /\ tdepth t = d.
Proof.
  intros N M td l t d x E R B. unfold bt_shape in B. rewrite E in *. cbn [bind] in *. rewrite R in B. cbn [bind] in B.
  split; [exact R|congruence].
Qed.

(** With the values in the file (512 bytes for both kinds of nodes, keys of 8 and tuples of 16 bytes, TARGET_DEPTH 1) the
    nodes hold 14 and 18 keys, and the tree has one level more than wanted and leaves that are half full. *)
Theorem C99_bench_depth_refuted : exists M N td t,
  pb_leaf_keys 8 16 512 = Ok M /\ (exists n, pb_branch_keys 8 24 512 = Ok n /\ N = n - n mod 2) /\ td = 1 /\
  (do l <- bench_insert M N td; t_run N M (pbp_ops nat M) (t_new (pbp_ops nat M)) (map bop_of (fill_ops (fun x => x) l))) = Ok t /\
  tdepth t = 2 /\ bt_shape N M td = Ok (2, [18; 18; 18; 18; 18; 18; 18; 18; 18; 18; 18; 18; 18; 9; 9; 18]).
Proof.
  exists 18, 14, 1.
  destruct (@bench_tree nat 14 18 1 (fun x => x) ltac:(lia) ltac:(lia)) as (l & t & E & R & _).
  assert (B : bt_shape 14 18 1 = Ok (2, [18; 18; 18; 18; 18; 18; 18; 18; 18; 18; 18; 18; 18; 9; 9; 18])) by (vm_compute; reflexivity).
  destruct (@bt_depth 14 18 1 l t _ _ E R B) as [B1 B2].
  exists t. split; [vm_compute; reflexivity|]. split; [exists 15; split; vm_compute; reflexivity|]. split; [reflexivity|].
  split; [exact B1|]. split; [exact B2|exact B].
Qed.
Print Assumptions C99_bench_depth_refuted.

(** With an odd number of keys in the leaves the tree has the wanted depth here. *)
Example C99_odd_ex : bt_shape 14 17 1 = Ok (1, repeat 17 15) /\ bt_shape 4 5 2 = Ok (2, repeat 5 25) /\ bt_shape 4 4 1 = Ok (2, [4; 4; 4; 2; 2; 4]).
Proof. vm_compute. repeat split. Qed.
