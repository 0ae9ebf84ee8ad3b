(** C12, C13: UnsortedPBPTree (pbptrees/UnsortedPBPTree.hpp).  [t] is the integral KeyType. *)
From Verif Require Import Base MapSpec RankModel BTreeModel BTreeSpec SLeafModel ULeafModel ULeafProofs UTreeProofs BTreeMain EraseSpec EraseG.
Open Scope nat_scope.

Definition i32 : ktype := {| kt_signed := true; kt_bits := 32 |}.
Definition ins_of (ks : list Z) : list (mop Z) := map (fun k => OpInsert k (k + 1)%Z) ks.
Definition scrambled (n : nat) : list Z := map (fun i => (Z.of_nat i * 37) mod 101 - 50)%Z (seq 1 n).

Lemma ins_of_ok ks : forallb (fun k => (-2147483648 <=? k) && (k <=? 2147483647))%Z ks = true ->
  Forall (ins_ok (kt_in i32)) (ins_of ks).
Proof.
  intros H. rewrite forallb_forall in H. apply Forall_forall. intros o Ho.
  apply in_map_iff in Ho as (k & <- & Hk). specialize (H k Hk). apply andb_prop in H as [H1 H2].
  cbn [ins_ok]. unfold kt_in, kt_min, kt_max, i32. cbn [kt_signed kt_bits].
  change (2 ^ (32 - 1))%Z with 2147483648%Z. lia.
Qed.

(** * C12 *)
Theorem C12_unsorted_map : forall V t N M (os : list (mop V)),
  2 <= M -> 2 <= N -> (1 <= kt_bits t <= 64)%Z -> Forall (ins_ok (kt_in t)) os ->
  exists tr, t_run N M (un_ops V t M) (t_new (un_ops V t M)) (map bop_of os) = Ok tr /\
    forall k, t_lookup (un_ops V t M) tr k = Ok (m_run os k).
Proof.
  intros V t N M os HM HN Ht. exact (io_lookup (ul_laws V HM Ht) HN (os := os)).
Qed.
Print Assumptions C12_unsorted_map.

Theorem C12_unsorted_scan : forall V t N M (os : list (mop V)),
  2 <= M -> 2 <= N -> (1 <= kt_bits t <= 64)%Z -> Forall (ins_ok (kt_in t)) os ->
  exists tr out, t_run N M (un_ops V t M) (t_new (un_ops V t M)) (map bop_of os) = Ok tr /\
    t_scan (un_ops V t M) tr = Ok out /\ enumerates (m_run os) out /\ in_runs M out.
Proof.
  intros V t N M os HM HN Ht. exact (io_scan_enum (ul_laws V HM Ht) HN (os := os)).
Qed.
Print Assumptions C12_unsorted_scan.

Theorem C12_unsorted_shape : forall V t N M (os : list (mop V)),
  2 <= M -> 2 <= N -> (1 <= kt_bits t <= 64)%Z -> Forall (ins_ok (kt_in t)) os ->
  exists tr n, t_run N M (un_ops V t M) (t_new (un_ops V t M)) (map bop_of os) = Ok tr /\
    shape N M (M / 2) ((N + 1) / 2 - 1) (un_ops V t M) (th tr) (tdepth tr) true (troot tr) n.
Proof.
  intros V t N M os HM HN Ht. exact (io_shape (ul_laws V HM Ht) HN (os := os)).
Qed.
Print Assumptions C12_unsorted_shape.

Example C12_ex : Forall (ins_ok (kt_in i32)) (ins_of (scrambled 60)) /\
  (do tr <- t_run 4 3 (un_ops Z i32 3) (t_new (un_ops Z i32 3)) (map bop_of (ins_of (scrambled 60)));
   do a <- t_lookup (un_ops Z i32 3) tr (-13)%Z; do b <- t_lookup (un_ops Z i32 3) tr 100%Z;
   do o <- t_scan (un_ops Z i32 3) tr;
   Ok (tdepth tr, a, b, length o, firstn 6 (map fst o))) =
  Ok (3, Some (-12)%Z, None, 60, [-47; -48; -44; -45; -40; -41]%Z).
Proof.
  split; [apply ins_of_ok; vm_compute; reflexivity|vm_compute; reflexivity].
Qed.

(** * C13 *)

(** Three leaves {10,20} {30,40} {50,...}: erasing 10 merges the first two and frees the third,
    which stays linked; looking up 60 then reads a freed node. *)
Theorem C13_refuted : exists (os : list (mop Z)) k x,
  let O := un_ops Z i32 4 in
  hist_ok m_empty (os ++ [OpErase _ k]) /\ Forall (ins_ok (kt_in i32)) os /\ m_run (os ++ [OpErase _ k]) x = Some 61%Z /\
  (do tr <- t_run 4 4 O (t_new O) (map bop_of os); t_lookup O tr x) = Ok (Some 61%Z) /\
  (do tr <- t_run 4 4 O (t_new O) (map bop_of os); do r <- t_erase 4 4 O tr k; Ok (snd r)) = Ok true /\
  (do tr <- t_run 4 4 O (t_new O) (map bop_of os); do r <- t_erase 4 4 O tr k; t_lookup O (fst r) x) = UB.
Proof.
  exists (ins_of [10; 20; 30; 40; 50; 60; 70; 80; 90]%Z), 10%Z, 60%Z. cbv zeta.
  split; [vm_compute; repeat split; discriminate|].
  split; [apply ins_of_ok; vm_compute; reflexivity|].
  split; [vm_compute; reflexivity|].
  split; [vm_compute; reflexivity|].
  split; vm_compute; reflexivity.
Qed.
Print Assumptions C13_refuted.

(** What does hold: as long as never more than [M] entries are stored, insert and erase of present
    keys are safe and the tree is the map.  Missing: see [C13_guarded_partial]. *)
Theorem C13_erase_partial : forall V t N M (os : list (mop V)),
  2 <= M -> (1 <= kt_bits t <= 64)%Z -> small_hist t M m_empty os ->
  exists tr, t_run N M (un_ops V t M) (t_new (un_ops V t M)) (map bop_of os) = Ok tr /\
    forall k, t_lookup (un_ops V t M) tr k = Ok (m_run os k).
Proof. intros V t N M os HM Ht. exact (small_ok N HM Ht (os := os)). Qed.
Print Assumptions C13_erase_partial.

(** The leaf-level parts of erase in trees of any size: removal from a leaf, merging and
    rebalancing of two leaves keep exactly the entries they should. *)
Theorem C13_leaf_erase_partial : forall V t M l (es : list (Z * V)) k,
  ul_rep t M l es -> SortedList.get k es <> None ->
  exists l', ul_erase l k = Ok (true, l') /\ ul_rep t M l' (SortedList.del k es).
Proof. intros V t M l es k HR HG. destruct (ul_erase_ok HR HG) as (l' & E & H & _). eauto. Qed.
Print Assumptions C13_leaf_erase_partial.

(** Trees of any size: an erase is right if the leaf that gets too few entries is not the first child of its
    parent and so is not merged with its right neighbour, or that neighbour can lend entries, or it is the
    last leaf of the tree ([rm_ok], decided before the erase).  For histories all of whose erases meet this,
    the tree is the map, its scan enumerates it and its shape is that of a B+-tree.
    Missing: the other erases, which free a leaf in use ([C13_refuted]); odd [N] and [N] = 4. *)
Theorem C13_guarded_partial : forall V t N M (os : list (mop V)) (O := un_ops V t M),
  2 <= M -> (1 <= kt_bits t <= 64)%Z -> 6 <= N -> Nat.even N = true ->
  hist_ok m_empty os -> Forall (op_in (kt_in t)) os -> fine N M O (rm_ok M O) (t_new O) (map bop_of os) = true ->
  exists tr out, t_run N M O (t_new O) (map bop_of os) = Ok tr /\
    (forall k, t_lookup O tr k = Ok (m_run os k)) /\
    t_scan O tr = Ok out /\ enumerates (m_run os) out /\ in_runs M out /\
    shape N M (M / 2) (N / 2 - 1) O (th tr) (tdepth tr) true (troot tr) (length out) /\
    (forall k, m_run os k <> None -> leaf_guard M O (rm_ok M O) (th tr) (tdepth tr) (troot tr) k = Ok true ->
      exists tr', t_erase N M O tr k = Ok (tr', true) /\ forall x, t_lookup O tr' x = Ok (m_del (m_run os) k x)).
Proof. intros V t N M os O HM Ht HN HE. exact (@un_guarded V t N M HM Ht HN HE os). Qed.
Print Assumptions C13_guarded_partial.

(** Histories that only ever erase the largest key stored meet this condition: they are right. *)
Theorem C13_largest_partial : forall V t N M (os : list (mop V)) (O := un_ops V t M),
  2 <= M -> (1 <= kt_bits t <= 64)%Z -> 6 <= N -> Nat.even N = true ->
  max_hist m_empty os -> Forall (op_in (kt_in t)) os ->
  exists tr out, t_run N M O (t_new O) (map bop_of os) = Ok tr /\
    (forall k, t_lookup O tr k = Ok (m_run os k)) /\
    t_scan O tr = Ok out /\ enumerates (m_run os) out /\ in_runs M out /\
    shape N M (M / 2) (N / 2 - 1) O (th tr) (tdepth tr) true (troot tr) (length out).
Proof.
  intros V t N M os O HM Ht HN HE HX FK. destruct (@un_max V t N M HM Ht HN HE os HX FK) as [H1 H2].
  destruct (@un_guarded V t N M HM Ht HN HE os H1 FK H2) as (tr & out & R1 & R2 & R3 & R4 & R5 & R6 & _).
  exists tr, out. repeat split; auto; apply R4.
Qed.
Print Assumptions C13_largest_partial.

Example C13_ex :
  let os := [OpInsert 5%Z 1; OpInsert 3%Z 2; OpErase _ 5%Z; OpInsert 9%Z 3; OpInsert (-4)%Z 4; OpErase _ 3%Z] in
  small_hist i32 3 m_empty os /\
  (do tr <- t_run 4 3 (un_ops nat i32 3) (t_new (un_ops nat i32 3)) (map bop_of os); t_lookup (un_ops nat i32 3) tr 9%Z)
  = Ok (Some 3).
Proof.
  cbv zeta. split; [apply (@small_chk_ok _ i32 3 _ []); [constructor|reflexivity|vm_compute; reflexivity]|vm_compute; reflexivity].
Qed.

(** ** Examples for the guarded theorems *)
Definition er_of (ks : list Z) : list (mop Z) := map (OpErase Z) ks.
Definition rising (n : nat) : list Z := map (fun i => Z.of_nat i * 10)%Z (seq 1 n).

Lemma ops_in_i32 (os : list (mop Z)) :
  forallb (fun o => match o with OpInsert k _ | OpErase _ k => (-2147483648 <=? k) && (k <=? 2147483647) end)%Z os = true ->
  Forall (op_in (kt_in i32)) os.
Proof.
  intros H. rewrite forallb_forall in H. apply Forall_forall. intros o Ho. specialize (H o Ho).
  destruct o as [k v|k]; cbv beta iota in H; apply andb_true_iff in H as [H1 H2]; apply Z.leb_le in H1, H2; unfold op_in, kt_in; cbn; lia.
Qed.

Fixpoint max_chk (ks : list Z) (os : list (mop Z)) : bool :=
  match os with
  | [] => true
  | OpInsert k _ :: r => max_chk (k :: ks) r
  | OpErase _ k :: r => existsb (Z.eqb k) ks && forallb (fun x => x <=? k)%Z ks && max_chk (filter (fun x => negb (x =? k)%Z) ks) r
  end.

Lemma max_chk_ok os : forall ks (m : amap Z), (forall x, m x <> None <-> In x ks) -> max_chk ks os = true -> max_hist m os.
Proof.
  induction os as [|o r IH]; intros ks m H E; [exact Logic.I|]. destruct o as [k v|k]; cbn [max_chk max_hist] in *.
  - split; [exact Logic.I|]. apply (IH (k :: ks)); auto. intros x. cbn [m_step]. unfold m_put. destruct (Z.eqb_spec x k) as [->|D].
    + split; [left; auto|discriminate].
    + rewrite H. cbn. intuition congruence.
  - apply andb_true_iff in E as [E E3]. apply andb_true_iff in E as [E1 E2].
    apply existsb_exists in E1 as (y & Hy & Ey). apply Z.eqb_eq in Ey. subst y. rewrite forallb_forall in E2. split; [split|].
    + apply H. auto.
    + intros x Hx. apply H in Hx. apply E2 in Hx. now apply Z.leb_le.
    + apply (IH (filter (fun x => negb (x =? k)%Z) ks)); auto. intros x. cbn [m_step]. unfold m_del. rewrite filter_In.
      destruct (Z.eqb_spec x k) as [->|D]; cbn; [rewrite <- H; intuition congruence|rewrite H; intuition].
Qed.

(** Sixty keys inserted in scrambled order, thirty of them erased again: leaves borrow from both sides and
    are merged to the left. *)
Example C13_guarded_ex : let O := un_ops Z i32 4 in let os := ins_of (scrambled 60) ++ er_of (firstn 30 (rev (scrambled 60))) in
  hist_ok m_empty os /\ Forall (op_in (kt_in i32)) os /\ fine 6 4 O (rm_ok 4 O) (t_new O) (map bop_of os) = true /\
  (do tr <- t_run 6 4 O (t_new O) (map bop_of (ins_of (scrambled 60))); Ok (tdepth tr)) = Ok 2 /\
  (do tr <- t_run 6 4 O (t_new O) (map bop_of os); do a <- t_lookup O tr (-13)%Z; do b <- t_lookup O tr (-48)%Z;
   do o <- t_scan O tr; Ok (tdepth tr, a, b, length o)) = Ok (2, Some (-12)%Z, None, 30) /\
  fine 6 4 O (rm_ok 4 O) (t_new O) (map bop_of (ins_of (rising 30) ++ er_of [10; 20; 30]%Z)) = false.
Proof.
  cbv zeta. split; [vm_compute; repeat split; discriminate|]. split; [apply ops_in_i32; vm_compute; reflexivity|].
  repeat split; vm_compute; reflexivity.
Qed.

(** Sixty rising keys, erased from the largest down to the second. *)
Example C13_largest_ex : let O := un_ops Z i32 4 in let os := ins_of (rising 60) ++ er_of (firstn 59 (rev (rising 60))) in
  max_hist m_empty os /\ Forall (op_in (kt_in i32)) os /\
  (do tr <- t_run 6 4 O (t_new O) (map bop_of (ins_of (rising 60))); Ok (tdepth tr)) = Ok 2 /\
  (do tr <- t_run 6 4 O (t_new O) (map bop_of os); do o <- t_scan O tr; Ok (tdepth tr, o)) = Ok (0, [(10, 11)]%Z).
Proof.
  cbv zeta. split; [apply (@max_chk_ok _ []); [intros x; unfold m_empty; cbn; intuition|vm_compute; reflexivity]|].
  split; [apply ops_in_i32; vm_compute; reflexivity|]. split; vm_compute; reflexivity.
Qed.
