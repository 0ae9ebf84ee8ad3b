(** C47, C48 and C64 to C67: the wBPTree. *)
From Verif Require Import Base MapSpec SortedList BitmapModel BTreeModel BitTreeModel InsSpec WbModel WbSpec WbProofs WbMain WbLeaf WbTree PropBit.
Open Scope nat_scope.

(** Leaves for the examples: inserts into an empty leaf of capacity [M]. *)
Fixpoint fill (M : nat) (l : wleaf Z) (os : list (Z * Z)) : res (wleaf Z) :=
  match os with
  | [] => Ok l
  | (k, v) :: r =>
    do n <- w_count l;
    if n <? M then do x <- w_insert M l k v; match x with LDone l' => fill M l' r | LSplit _ _ _ => UB end else UB
  end.
Definition leaf_with (M : nat) (os : list (Z * Z)) : res (wleaf Z) := fill M (w_new Z M) os.
Lemma fill_good M os : forall l l', good_leaf M l -> fill M l os = Ok l' -> good_leaf M l'.
Proof.
  induction os as [|[k v] os IH]; intros l l' G E; cbn [fill] in E; [congruence|].
  destruct (w_count l) as [n| |] eqn:EN; cbn [bind] in E; try discriminate.
  destruct (Nat.ltb_spec n M); [|discriminate].
  destruct (leaf_lookup k G) as [(w & HS & _)|[HS _]].
  - destruct (@leaf_overwrite _ _ l k v w n G EN HS) as (l1 & E1 & G1 & _). rewrite E1 in E. cbn [bind] in E. eauto.
  - destruct (@leaf_insert _ _ l k v n G EN) as (l1 & E1 & G1 & _); auto. rewrite E1 in E. cbn [bind] in E. eauto.
Qed.
Lemma leaf_with_good M os l : leaf_with M os = Ok l -> good_leaf M l.
Proof. apply fill_good. eapply wrep_good, w_new_rep. Qed.
Lemma found M (l : wleaf Z) k v : good_leaf M l -> w_lookup l k = Ok (Some v) -> stored M l k v.
Proof. intros G E. destruct (leaf_lookup k G) as [(w & S & E')|[_ E']]; [|congruence]. rewrite E in E'. now injection E' as ->. Qed.
Lemma missing M (l : wleaf Z) k : good_leaf M l -> w_lookup l k = Ok None -> forall v, ~ stored M l k v.
Proof. intros G E. destruct (leaf_lookup k G) as [(w & S & E')|[H E']]; [congruence|exact H]. Qed.

(** * C47 *)

(** The key goes to the wrong half when it belongs just before the last key that stays in the left leaf. *)
Theorem C47_refuted : exists (os : list (Z * Z)) t k v, In (k, v) os /\ NoDup (map fst os) /\
  wt_run 4 4 (wt_new Z 4) os = Ok t /\ wt_lookup t k = Ok None.
Proof.
  exists [(10, 1); (20, 2); (30, 3); (40, 4); (15, 5); (50, 6); (60, 7)]%Z. eexists. exists 20%Z, 2%Z. splits.
  - right. now left.
  - repeat constructor; cbn; intuition congruence.
  - vm_compute; reflexivity.
  - vm_compute; reflexivity.
Qed.
Print Assumptions C47_refuted.
(** findLeafNode never uses the pointer behind the last key: after the first split, keys of the right
    leaf are looked for through a slot that was never written. *)
Theorem C47_ub_refuted : exists (os : list (Z * Z)) t k v, In (k, v) os /\ NoDup (map fst os) /\
  wt_run 4 4 (wt_new Z 4) os = Ok t /\ wt_lookup t k = UB.
Proof.
  exists [(10, 1); (20, 2); (30, 3); (40, 4); (35, 5)]%Z. eexists. exists 30%Z, 3%Z. splits.
  - right. right. now left.
  - repeat constructor; cbn; intuition congruence.
  - vm_compute; reflexivity.
  - vm_compute; reflexivity.
Qed.
Print Assumptions C47_ub_refuted.

(** It is so for every history of M+1 different keys: the split key is one of them, and looking it or any larger
    key up is undefined. *)
Theorem C47_first_split : forall (V : Type) (M N : nat) (os : list (Z * V)), 2 <= M -> 1 <= N ->
  NoDup (map fst os) -> length os = S M ->
  exists t sk, wt_run N M (wt_new V M) os = Ok t /\ In sk (map fst os) /\ forall k, (sk <= k)%Z -> wt_lookup t k = UB.
Proof. exact first_split. Qed.
Print Assumptions C47_first_split.
Example C47_first_split_case : NoDup (map fst [(3, 1); (1, 2); (2, 3)]%Z) /\ length [(3, 1); (1, 2); (2, 3)]%Z = 3.
Proof. split; [repeat constructor; cbn; intuition congruence|reflexivity]. Qed.

(** As long as everything fits into one leaf, lookups agree with the map. *)
Theorem C47_one_leaf_partial : forall (V : Type) (N M : nat) (os : list (mop V)), 0 < M -> one_leaf M m_empty os ->
  exists t, wt_run0 N M (wt_new V M) os = Ok t /\ forall k, wt_lookup t k = Ok (m_run os k).
Proof.
  intros V N M os HM H. destruct (@t1_run V M N os (wt_new V M) [] m_empty HM (t1_new V M)) as (t & es & E & Ht & HO & HE); auto.
  - constructor.
  - exists t. split; auto. intros k. rewrite (t1_lookup k Ht). now rewrite HE.
Qed.
Print Assumptions C47_one_leaf_partial.
Definition c47_ops : list (mop Z) := [OpInsert 7 1; OpInsert 3 2; OpInsert 9 3; OpErase _ 7; OpInsert 3 4; OpInsert 8 5; OpInsert 1 6]%Z.
Ltac fit ks := exists ks; split; [cbn; lia|]; intros k; cbn [m_step]; unfold m_put, m_del, m_empty;
  repeat (match goal with |- context [(?a =? ?b)%Z] => destruct (Z.eqb_spec a b) end; [subst; intros; cbn in *; first [congruence|solve [auto 10]]|]); congruence.
Example C47_example : one_leaf 4 m_empty c47_ops /\ m_run c47_ops 3%Z = Some 4%Z /\ m_run c47_ops 7%Z = None.
Proof.
  split; [|split; reflexivity]. unfold c47_ops. cbn [one_leaf].
  splits; try exact I; try (cbn; discriminate); first [fit [3; 9; 7]%Z | fit [1; 3; 8; 9]%Z].
Qed.
Example C47_case : exists t, wt_run0 4 4 (wt_new Z 4) c47_ops = Ok t /\ wt_lookup t 3%Z = Ok (Some 4%Z) /\ wt_lookup t 7%Z = Ok None.
Proof. eexists. splits; vm_compute; reflexivity. Qed.

(** The entries are where they should be, whatever the depth, in histories whose new keys are above or below all
    stored ones: the leaf to which insertInBranchNode itself descends holds the entry.  Only findLeafNode
    takes another way. *)
Theorem C47_structure_partial : forall (V : Type) (N M : nat) (os : list (Z * V)), 2 <= N -> 3 <= M -> outward m_empty os ->
  exists t, wt_run N M (wt_new V M) os = Ok t /\ forall k,
    (do i <- wt_route N (wtb t) (wdepth t) (wroot t) k; do l <- getl (wth t) i; w_lookup l k) = Ok (m_run (inserts os) k).
Proof. intros V N M os HN HM HO. assert (HM2 : 2 <= M) by lia. exact (wt_struct_out HN HM2 HM HO). Qed.
Print Assumptions C47_structure_partial.
Definition c47_out : list (Z * Z) := map (fun i => ((if Z.even i then i else - i), i + 7)%Z) (map Z.of_nat (seq 0 40)) ++ [(4, 1); (-3, 2)]%Z.
Fixpoint outward_b (ks : list Z) (os : list (Z * Z)) : bool :=
  match os with
  | [] => true
  | (k, v) :: r => (existsb (Z.eqb k) ks || forallb (fun x => x <? k)%Z ks || forallb (fun x => k <? x)%Z ks) && outward_b (k :: ks) r
  end.
Lemma outward_b_ok os : forall ks (m : amap Z), (forall k, m k <> None <-> In k ks) -> outward_b ks os = true -> outward m os.
Proof.
  induction os as [|[k v] os IH]; intros ks m Hm H; cbn [outward outward_b] in *; auto.
  apply andb_prop in H as [H1 H2]. split.
  - apply orb_prop in H1 as [H1|H1]; [apply orb_prop in H1 as [H1|H1]|].
    + left. apply Hm. apply existsb_exists in H1 as (x & Hx & E). apply Z.eqb_eq in E. now subst.
    + right. left. intros x Hx. rewrite forallb_forall in H1. apply Hm in Hx. specialize (H1 x Hx). lia.
    + right. right. intros x Hx. rewrite forallb_forall in H1. apply Hm in Hx. specialize (H1 x Hx). lia.
  - apply (IH (k :: ks)); auto. intros x. unfold m_put. destruct (Z.eqb_spec x k) as [->|NE]; cbn [In].
    + split; [auto|discriminate].
    + rewrite Hm. split; [auto|intros [E|E]; [congruence|auto]].
Qed.
Example C47_structure_case : outward m_empty c47_out /\ m_run (inserts c47_out) (-3)%Z = Some 2%Z /\
  (do t <- wt_run 3 4 (wt_new Z 4) c47_out; do i <- wt_route 3 (wtb t) (wdepth t) (wroot t) (-3)%Z;
   do l <- getl (wth t) i; do x <- w_lookup l (-3)%Z; Ok (wdepth t, x)) = Ok (3, Some 2%Z).
Proof.
  split; [|split; vm_compute; reflexivity].
  apply (@outward_b_ok _ []); [|vm_compute; reflexivity]. intros k. cbn. unfold m_empty. split; [congruence|tauto].
Qed.

(** * C48 *)
Theorem C48_wbptree_insert : forall (V : Type) (M : nat) (l : wleaf V) (key : Z) (val : V) (n : nat),
  good_leaf M l -> w_count l = Ok n -> n < M -> (forall v, ~ stored M l key v) ->
  exists l', w_insert M l key val = Ok (LDone l') /\ good_leaf M l' /\ w_count l' = Ok (S n) /\
    forall k v, stored M l' k v <-> (k = key /\ v = val) \/ stored M l k v.
Proof. exact leaf_insert. Qed.
Print Assumptions C48_wbptree_insert.
Theorem C48_wbptree_overwrite : forall (V : Type) (M : nat) (l : wleaf V) (key : Z) (val w : V) (n : nat),
  good_leaf M l -> w_count l = Ok n -> stored M l key w ->
  exists l', w_insert M l key val = Ok (LDone l') /\ good_leaf M l' /\ w_count l' = Ok n /\
    forall k v, stored M l' k v <-> (k = key /\ v = val) \/ (k <> key /\ stored M l k v).
Proof. exact leaf_overwrite. Qed.
Print Assumptions C48_wbptree_overwrite.
(** The binary search over the slots finds exactly the stored entries. *)
Theorem C48_wbptree_lookup : forall (V : Type) (M : nat) (l : wleaf V) (key : Z), good_leaf M l ->
  (exists v, stored M l key v /\ w_lookup l key = Ok (Some v)) \/ ((forall v, ~ stored M l key v) /\ w_lookup l key = Ok None).
Proof. exact leaf_lookup. Qed.
Print Assumptions C48_wbptree_lookup.
Theorem C48_wbptree_new : forall (V : Type) (M : nat), good_leaf M (w_new V M) /\ w_count (w_new V M) = Ok 0 /\
  forall k v, ~ stored M (w_new V M) k v.
Proof.
  intros V M. splits; [eapply wrep_good, w_new_rep|reflexivity|]. intros k v H. apply (wrep_stored (w_new_rep V M)) in H. discriminate.
Qed.
Print Assumptions C48_wbptree_new.
Example C48_example : exists l, leaf_with 5 [(30, 1); (10, 2); (40, 3)]%Z = Ok l /\ good_leaf 5 l /\ w_count l = Ok 3 /\
  (forall v, ~ stored 5 l 20%Z v) /\ stored 5 l 10%Z 2%Z /\ ws l = [Some 3; Some 1; Some 0; Some 2; None; None] /\
  exists l', w_insert 5 l 20%Z 4%Z = Ok (LDone l') /\ ws l' = [Some 4; Some 1; Some 3; Some 0; Some 2; None].
Proof.
  eexists. match goal with |- ?e = Ok ?x /\ _ => assert (E : e = Ok x) by (vm_compute; reflexivity) end.
  pose proof (leaf_with_good E) as G. splits; auto; try reflexivity.
  - apply (missing G). vm_compute. reflexivity.
  - apply (found G). vm_compute. reflexivity.
  - eexists. split; vm_compute; reflexivity.
Qed.

(** * C64 *)

(** The descent follows children[0], which is not the leftmost child any more once the leftmost leaf was split. *)
Theorem C64_refuted : exists (os : list (Z * Z)) t l, NoDup (map fst os) /\ wt_run 4 4 (wt_new Z 4) os = Ok t /\
  wt_scan 4 t = Ok l /\ length l < length os.
Proof.
  exists [(50, 1); (60, 2); (70, 3); (80, 4); (40, 5); (30, 6); (20, 7)]%Z. eexists. eexists. splits.
  - repeat constructor; cbn; intuition congruence.
  - vm_compute; reflexivity.
  - vm_compute; reflexivity.
  - vm_compute. lia.
Qed.
Print Assumptions C64_refuted.
Theorem C64_one_leaf_partial : forall (V : Type) (N M : nat) (os : list (mop V)), 0 < M -> one_leaf M m_empty os ->
  exists t l, wt_run0 N M (wt_new V M) os = Ok t /\ wt_scan M t = Ok l /\ lists (m_run os) l.
Proof.
  intros V N M os HM H. destruct (@t1_run V M N os (wt_new V M) [] m_empty HM (t1_new V M)) as (t & es & E & Ht & HO & HE); auto.
  - constructor.
  - exists t, es. splits; auto; [now apply t1_scan|]. destruct (sorted_lists HO) as [L1 L2]. split; auto. intros k v. rewrite L2. now rewrite HE.
Qed.
Print Assumptions C64_one_leaf_partial.
(** In ascending order the scan lists everything at any size of tree. *)
Theorem C64_ascending_partial : forall (V : Type) (N M : nat) (os : list (Z * V)), 2 <= N -> 2 <= M -> ascending os ->
  exists t l, wt_run N M (wt_new V M) os = Ok t /\ wt_scan M t = Ok l /\ lists (m_run (inserts os)) l.
Proof. intros V N M os HN HM HA. exact (wt_scan_asc HN HM HA). Qed.
Print Assumptions C64_ascending_partial.
Example C64_ascending_case : ascending (asc_bit 30) /\ 
  (do t <- wt_run 3 4 (wt_new Z 4) (asc_bit 30); do l <- wt_scan 4 t; Ok (wdepth t, l)) = Ok (3, asc_bit 30).
Proof. split; [apply asc_b_ok|]; vm_compute; reflexivity. Qed.
Example C64_case : exists t, wt_run0 4 4 (wt_new Z 4) c47_ops = Ok t /\ wt_scan 4 t = Ok [(1, 6); (3, 4); (8, 5); (9, 3)]%Z.
Proof. eexists. splits; vm_compute; reflexivity. Qed.

(** * C65 *)
Theorem C65_wbptree_erase_partial : forall (V : Type) (M : nat) (l : wleaf V) (key : Z) (w : V) (n : nat),
  good_leaf M l -> w_count l = Ok n -> n < M -> stored M l key w ->
  exists l', w_erase M l key = Ok (true, l') /\ good_leaf M l' /\ w_count l' = Ok (n - 1) /\
    forall k v, stored M l' k v <-> k <> key /\ stored M l k v.
Proof. exact leaf_erase. Qed.
Print Assumptions C65_wbptree_erase_partial.
Theorem C65_wbptree_erase_absent_partial : forall (V : Type) (M : nat) (l : wleaf V) (key k : Z) (v : V),
  good_leaf M l -> (forall v, ~ stored M l key v) -> stored M l k v -> (key < k)%Z -> w_erase M l key = Ok (false, l).
Proof. exact leaf_erase_absent. Qed.
Print Assumptions C65_wbptree_erase_absent_partial.
(** Erasing from a full leaf always reads behind the slot array, whether the key is there or above all keys. *)
Theorem C65_wbptree_erase_full : forall (V : Type) (M : nat) (l : wleaf V) (key : Z),
  good_leaf M l -> w_count l = Ok M -> (exists v, stored M l key v) \/ (forall k v, stored M l k v -> (k < key)%Z) ->
  w_erase M l key = UB.
Proof. exact leaf_erase_full. Qed.
Print Assumptions C65_wbptree_erase_full.
Theorem C65_refuted : exists l, leaf_with 4 [(30, 1); (10, 2); (40, 3); (20, 4)]%Z = Ok l /\ good_leaf 4 l /\ stored 4 l 20%Z 4%Z /\
  w_erase 4 l 20%Z = UB.
Proof.
  eexists. match goal with |- ?e = Ok ?x /\ _ => assert (E : e = Ok x) by (vm_compute; reflexivity) end.
  pose proof (leaf_with_good E) as G. splits; auto; try reflexivity. apply (found G). vm_compute. reflexivity.
Qed.
Print Assumptions C65_refuted.
(** Erasing an absent key above all keys uses a slot that was never written as an index. *)
Theorem C65_absent_refuted : exists l, leaf_with 4 [(30, 1); (10, 2)]%Z = Ok l /\ good_leaf 4 l /\ (forall v, ~ stored 4 l 50%Z v) /\
  w_erase 4 l 50%Z = UB.
Proof.
  eexists. match goal with |- ?e = Ok ?x /\ _ => assert (E : e = Ok x) by (vm_compute; reflexivity) end.
  pose proof (leaf_with_good E) as G. splits; auto; try reflexivity. apply (missing G). vm_compute. reflexivity.
Qed.
Print Assumptions C65_absent_refuted.
Example C65_example : exists l, leaf_with 4 [(30, 1); (10, 2); (40, 3)]%Z = Ok l /\ good_leaf 4 l /\ w_count l = Ok 3 /\ stored 4 l 30%Z 1%Z /\
  (forall v, ~ stored 4 l 35%Z v) /\ w_erase 4 l 35%Z = Ok (false, l) /\
  exists l', w_erase 4 l 30%Z = Ok (true, l') /\ w_lookup l' 30%Z = Ok None /\ w_lookup l' 40%Z = Ok (Some 3%Z).
Proof.
  eexists. match goal with |- ?e = Ok ?x /\ _ => assert (E : e = Ok x) by (vm_compute; reflexivity) end.
  pose proof (leaf_with_good E) as G. splits; auto; try reflexivity.
  - apply (found G). vm_compute. reflexivity.
  - apply (missing G). vm_compute. reflexivity.
  - eexists. splits; vm_compute; reflexivity.
Qed.

(** * C66 *)

(** Inserting into a full leaf keeps every entry in one of two good leaves.  The split key separates them unless the
    new key has rank (M+1)/2 - 1, that is, unless it belongs just before the last key of the left half. *)
Theorem C66_wbptree_split_partial : forall (V : Type) (M : nat) (l : wleaf V) (key : Z) (val : V) (r : nat),
  good_leaf M l -> w_count l = Ok M -> 2 <= M -> (forall v, ~ stored M l key v) -> rank_of l key r ->
  exists l1 l2 sk, w_insert M l key val = Ok (LSplit l1 l2 sk) /\ good_leaf M l1 /\ good_leaf M l2 /\
    (forall k v, stored M l1 k v \/ stored M l2 k v <-> (k = key /\ v = val) \/ stored M l k v) /\
    (forall k v, stored M l2 k v -> (sk <= k)%Z) /\ (exists v, stored M l2 sk v) /\
    (S r <> (M + 1) / 2 -> forall k v, stored M l1 k v -> (k < sk)%Z).
Proof.
  intros V M l key val r H1 H2 H3 H4 H5. destruct (@leaf_split V M l key val r H1 H2 H3 H4 H5) as (l1 & l2 & sk & H). exists l1, l2, sk. tauto.
Qed.
Print Assumptions C66_wbptree_split_partial.
(** With that rank it always goes wrong: the new key becomes the split key and a larger key stays on the left. *)
Theorem C66_wbptree_bad_split : forall (V : Type) (M : nat) (l : wleaf V) (key : Z) (val : V) (r : nat),
  good_leaf M l -> w_count l = Ok M -> 2 <= M -> (forall v, ~ stored M l key v) -> rank_of l key r -> S r = (M + 1) / 2 ->
  exists l1 l2, w_insert M l key val = Ok (LSplit l1 l2 key) /\ exists k v, stored M l1 k v /\ (key < k)%Z.
Proof.
  intros V M l key val r H1 H2 H3 H4 H5 H6. destruct (@leaf_split V M l key val r H1 H2 H3 H4 H5) as (l1 & l2 & sk & E & _ & _ & _ & _ & _ & _ & H).
  destruct (H H6) as (-> & _ & X). eauto.
Qed.
Print Assumptions C66_wbptree_bad_split.
Theorem C66_refuted : exists l l1 l2 sk, leaf_with 4 [(30, 1); (10, 2); (40, 3); (20, 4)]%Z = Ok l /\ good_leaf 4 l /\ rank_of l 15%Z 1 /\
  w_insert 4 l 15%Z 5%Z = Ok (LSplit l1 l2 sk) /\ stored 4 l1 20%Z 4%Z /\ (sk < 20)%Z.
Proof.
  destruct (leaf_with 4 [(30, 1); (10, 2); (40, 3); (20, 4)]%Z) as [l| |] eqn:E; [|vm_compute in E; discriminate E..].
  pose proof (leaf_with_good E) as G. vm_compute in E. injection E as <-.
  assert (R : rank_of (WLeaf [Some 4; Some 1; Some 3; Some 0; Some 2] [15%N] [Some 30; Some 10; Some 40; Some 20]%Z [Some 1; Some 2; Some 3; Some 4]%Z) 15%Z 1).
  { exists 4. splits; [reflexivity|lia|]. intros i p k Hi Hp Hk. assert (i = 1 \/ i = 2 \/ i = 3 \/ i = 4) as [->|[->|[->| ->]]] by lia;
    vm_compute in Hp; injection Hp as <-; vm_compute in Hk; injection Hk as <-; lia. }
  destruct (@leaf_split Z 4 _ 15%Z 5%Z 1 G eq_refl) as (l1 & l2 & sk & EI & G1 & G2 & _); auto.
  { apply (missing G). vm_compute. reflexivity. }
  eexists. exists l1, l2, sk. splits; [reflexivity|exact G|exact R|exact EI| |].
  - apply (found G1). vm_compute in EI. injection EI as <- _ _. vm_compute. reflexivity.
  - vm_compute in EI. injection EI as _ _ <-. lia.
Qed.
Print Assumptions C66_refuted.
Example C66_example : exists l l1 l2, leaf_with 4 [(30, 1); (10, 2); (40, 3); (20, 4)]%Z = Ok l /\ good_leaf 4 l /\ rank_of l 35%Z 3 /\
  S 3 <> (4 + 1) / 2 /\ w_insert 4 l 35%Z 5%Z = Ok (LSplit l1 l2 30%Z) /\ w_lookup l1 20%Z = Ok (Some 4%Z) /\ w_lookup l2 35%Z = Ok (Some 5%Z).
Proof.
  eexists. eexists. eexists. match goal with |- ?e = Ok ?x /\ _ => assert (E : e = Ok x) by (vm_compute; reflexivity) end.
  pose proof (leaf_with_good E) as G. splits; [exact E|exact G| |vm_compute; lia|vm_compute; reflexivity|vm_compute; reflexivity|vm_compute; reflexivity].
  exists 4. splits; [reflexivity|lia|]. intros i p k Hi Hp Hk. assert (i = 1 \/ i = 2 \/ i = 3 \/ i = 4) as [->|[->|[->| ->]]] by lia;
    vm_compute in Hp; injection Hp as <-; vm_compute in Hk; injection Hk as <-; lia.
Qed.

(** * C67 *)
Theorem C67_wbptree_merge : forall (V : Type) (M : nat) (l1 l2 : wleaf V) (n1 n2 : nat),
  good_leaf M l1 -> good_leaf M l2 -> w_count l1 = Ok n1 -> w_count l2 = Ok n2 -> n1 + n2 <= M ->
  (forall k v k' v', stored M l1 k v -> stored M l2 k' v' -> (k < k')%Z) ->
  exists l, w_merge M l1 l2 = Ok l /\ good_leaf M l /\ w_count l = Ok (n1 + n2) /\
    forall k v, stored M l k v <-> stored M l1 k v \/ stored M l2 k v.
Proof. exact leaf_merge. Qed.
Print Assumptions C67_wbptree_merge.
Theorem C67_wbptree_balance : forall (V : Type) (M : nat) (d r : wleaf V) (nd nr : nat),
  good_leaf M d -> good_leaf M r -> w_count d = Ok nd -> w_count r = Ok nr -> 0 < nr -> nr < nd ->
  (forall k v k' v', stored M d k v -> stored M r k' v' -> (k < k')%Z) \/
  (forall k v k' v', stored M d k v -> stored M r k' v' -> (k' < k)%Z) ->
  exists d' r', w_balance M d r = Ok (d', r') /\ good_leaf M d' /\ good_leaf M r' /\
    w_count d' = Ok ((nd + nr) / 2) /\ w_count r' = Ok (nd + nr - (nd + nr) / 2) /\
    (forall k v, stored M d' k v \/ stored M r' k v <-> stored M d k v \/ stored M r k v) /\
    ((forall k v k' v', stored M d k v -> stored M r k' v' -> (k < k')%Z) ->
     forall k v k' v', stored M d' k v -> stored M r' k' v' -> (k < k')%Z) /\
    ((forall k v k' v', stored M d k v -> stored M r k' v' -> (k' < k)%Z) ->
     forall k v k' v', stored M d' k v -> stored M r' k' v' -> (k' < k)%Z).
Proof. exact leaf_balance. Qed.
Print Assumptions C67_wbptree_balance.
Definition c67_a := leaf_with 6 [(30, 1); (10, 2); (40, 3); (20, 4)]%Z.
Definition c67_b := leaf_with 6 [(60, 5); (50, 6)]%Z.
Definition c67_l (x : res (wleaf Z)) : wleaf Z := match x with Ok l => l | _ => w_new Z 6 end.
Example C67_example : good_leaf 6 (c67_l c67_a) /\ good_leaf 6 (c67_l c67_b) /\ w_count (c67_l c67_a) = Ok 4 /\ w_count (c67_l c67_b) = Ok 2 /\
  (forall k v k' v', stored 6 (c67_l c67_a) k v -> stored 6 (c67_l c67_b) k' v' -> (k < k')%Z).
Proof.
  assert (A : c67_a = Ok (c67_l c67_a)) by (vm_compute; reflexivity).
  assert (B : c67_b = Ok (c67_l c67_b)) by (vm_compute; reflexivity).
  splits; [exact (leaf_with_good A)|exact (leaf_with_good B)|reflexivity|reflexivity|].
  intros k v k' v' (p & [Hp Hb] & Hk & _) (q & [Hq Hb'] & Hk' & _).
  assert (p = 0 \/ p = 1 \/ p = 2 \/ p = 3 \/ p = 4 \/ p = 5) as P by lia.
  assert (q = 0 \/ q = 1 \/ q = 2 \/ q = 3 \/ q = 4 \/ q = 5) as Q by lia.
  assert (k <= 40)%Z by (decompose [or] P; subst p; vm_compute in Hk; try discriminate; injection Hk as <-; lia).
  assert (50 <= k')%Z by (decompose [or] Q; subst q; vm_compute in Hk'; try discriminate; injection Hk' as <-; lia).
  lia.
Qed.
Example C67_case : exists l d r, w_merge 6 (c67_l c67_a) (c67_l c67_b) = Ok l /\ w_count l = Ok 6 /\
  w_balance 6 (c67_l c67_a) (c67_l c67_b) = Ok (d, r) /\ w_scan d = Ok [(10, 2); (20, 4); (30, 1)]%Z /\ w_scan r = Ok [(40, 3); (50, 6); (60, 5)]%Z.
Proof. eexists. eexists. eexists. splits; vm_compute; reflexivity. Qed.
