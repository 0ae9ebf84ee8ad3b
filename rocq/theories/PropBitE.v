(** C70: erase of BitPBPTree and BitHPBPTree. *)
From Verif Require Import Base MapSpec RankModel BitmapModel BTreeModel BTreeSpec FLeafModel BitTreeModel BitProofs BitHModel BitEModel BitESpec
  BitEProofs PropUnsorted PropBit.
Open Scope Z_scope.

Definition up_b (n : nat) : list (mop Z) := map (fun i => OpInsert (Z.of_nat (S i) * 10) (Z.of_nat i)) (seq 0 n).
Definition down_b (n : nat) : list (mop Z) := map (fun i => OpInsert (Z.of_nat (n - i) * 10) (Z.of_nat i)) (seq 0 n).
Definition del_b (ks : list Z) : list (mop Z) := map (fun k => OpErase Z k) ks.
Definition bith_hist (N M : nat) (os : list (mop Z)) : res (btree Z) :=
  be_run i32 N M (bh_ops Z i32 M) (bh_new Z i32 M) (map bop_of os).

(** Merging the first leaf with the second one frees the third one (BitPBPTree.hpp:516-517): 50 is now
    in a leaf that is gone. *)
Theorem C70_freed_refuted : exists (os : list (mop Z)) k v, m_run os k = Some v /\
  (exists tr, bt_hist i32 3 4 (map bop_of os) = Ok tr /\ bt_lookup i32 3 4 tr k = UB) /\
  (exists tr, bith_hist 3 4 os = Ok tr /\ bh_lookup i32 3 4 tr k = UB).
Proof.
  exists (up_b 9 ++ del_b [10]), 50, 4. split; [vm_compute; reflexivity|].
  split; eexists; (split; [vm_compute; reflexivity|vm_compute; reflexivity]).
Qed.
Print Assumptions C70_freed_refuted.

(** A leaf that takes entries from its left neighbour (488-489): the new smallest key is written over
    a separator further right, and 10 is not found any more. *)
Theorem C70_lost_refuted : exists (os : list (mop Z)) k v, m_run os k = Some v /\
  (do tr <- bt_hist i32 5 4 (map bop_of os); bt_lookup i32 5 4 tr k) = Ok None /\
  (do tr <- bith_hist 5 4 os; bh_lookup i32 5 4 tr k) = Ok None.
Proof. exists (down_b 30 ++ del_b [50]), 10, 29. vm_compute. auto. Qed.
Print Assumptions C70_lost_refuted.

(** The rightmost child of a node with too few keys: [nodeKeys[pos]] is read with pos = N (697). *)
Theorem C70_refuted : exists (os : list (mop Z)) k v, m_run os k = Some v /\
  (exists tr, bt_hist i32 5 4 (map bop_of os) = Ok tr /\ bt_lookup i32 5 4 tr k = Ok (Some v) /\
     be_erase i32 5 4 (bit_ops Z i32 4) tr k = UB) /\
  (exists tr, bith_hist 5 4 os = Ok tr /\ bh_lookup i32 5 4 tr k = Ok (Some v) /\
     be_erase i32 5 4 (bh_ops Z i32 4) tr k = UB).
Proof.
  exists (down_b 30), 300, 0. split; [vm_compute; reflexivity|].
  split; eexists; (split; [vm_compute; reflexivity|split; vm_compute; reflexivity]).
Qed.
Print Assumptions C70_refuted.

(** Histories whose repairs are all of the kinds let through by BitESpec.  Missing: the others (refuted
    above); negative keys, the largest key, multiples of 64 as in C52 and C68; the scan. *)
Theorem C70_bit_erase_partial : forall V t (N M : nat) (os : list (mop V)) (O := bit_ops V t M),
  1 <= kt_bits t <= 64 -> (2 <= N)%nat -> (N mod 64 <> 0)%nat -> (2 <= M)%nat -> (N.of_nat M < W)%N ->
  Forall (fun o => match o with OpInsert k _ => 0 <= k < kt_max t | OpErase _ _ => True end) os ->
  ck_fine t N M O (bt_new V t M) (map bop_of os) = true ->
  exists tr, bt_hist t N M (map bop_of os) = Ok tr /\
  (forall k, 0 <= k < kt_max t -> bt_lookup t N M tr k = Ok (m_run os k)) /\
  (forall k, ck_ok t N M O tr k = true -> exists tr' b,
     be_erase t N M O tr k = Ok (tr', b) /\ (b = true <-> m_run os k <> None) /\
     forall x, 0 <= x < kt_max t -> bt_lookup t N M tr' x = Ok (m_del (m_run os) k x)).
Proof.
  intros V t N M os O Ht HN H64 HM HW HF CK.
  destruct (@bit_ck V t N M os) as (tr & E & HL & HE); auto.
  - apply Forall_map. eapply Forall_impl; [|exact HF]. intros [k v|k] Hk; cbn [bop_of ins_in]; auto. now apply bkok_of.
  - exists tr. split; auto. split.
    + intros k Hk. apply HL. now apply bkok_of.
    + intros k Hr. destruct (HE k Hr) as (tr' & b & H1 & H2 & H3). exists tr', b. split; auto. split; auto. intros x Hx. apply H3. now apply bkok_of.
Qed.
Print Assumptions C70_bit_erase_partial.
Theorem C70_bith_erase_partial : forall V t (N M : nat) (os : list (mop V)) (O := bh_ops V t M),
  1 <= kt_bits t <= 64 -> (2 <= N)%nat -> (N mod 64 <> 0)%nat -> (2 <= M)%nat -> (M mod 64 <> 0)%nat -> (N.of_nat M < W)%N ->
  Forall (fun o => match o with OpInsert k _ => 0 <= k < kt_max t | OpErase _ _ => True end) os ->
  ck_fine t N M O (bh_new V t M) (map bop_of os) = true ->
  exists tr, be_run t N M O (bh_new V t M) (map bop_of os) = Ok tr /\
  (forall k, 0 <= k < kt_max t -> bh_lookup t N M tr k = Ok (m_run os k)) /\
  (forall k, ck_ok t N M O tr k = true -> exists tr' b,
     be_erase t N M O tr k = Ok (tr', b) /\ (b = true <-> m_run os k <> None) /\
     forall x, 0 <= x < kt_max t -> bh_lookup t N M tr' x = Ok (m_del (m_run os) k x)).
Proof.
  intros V t N M os O Ht HN H64 HM HM64 HW HF CK.
  destruct (@bh_ck V t N M os) as (tr & E & HL & HE); auto.
  - apply Forall_map. eapply Forall_impl; [|exact HF]. intros [k v|k] Hk; cbn [bop_of ins_in]; auto. now apply bkok_of.
  - exists tr. split; auto. split.
    + intros k Hk. apply HL. now apply bkok_of.
    + intros k Hr. destruct (HE k Hr) as (tr' & b & H1 & H2 & H3). exists tr', b. split; auto. split; auto. intros x Hx. apply H3. now apply bkok_of.
Qed.
Print Assumptions C70_bith_erase_partial.

(** Boolean form of the key condition. *)
Lemma ops_b (os : list (mop Z)) : forallb (fun o => match o with OpInsert k _ => (0 <=? k) && (k <? kt_max i32) | OpErase _ _ => true end) os = true ->
  Forall (fun o => match o with OpInsert k _ => 0 <= k < kt_max i32 | OpErase _ _ => True end) os.
Proof.
  intros H. rewrite forallb_forall in H. apply Forall_forall. intros [k v|k] Hi; auto. specialize (H _ Hi). cbv beta iota in H.
  apply andb_prop in H as [H1 H2]. apply Z.leb_le in H1. apply Z.ltb_lt in H2. auto.
Qed.

(** A leaf takes 30 from its right neighbour; then merges with the left neighbour; a tree of depth 2. *)
Example C70_balance_ex : let os := up_b 8 ++ [OpInsert 45 7] ++ del_b [20] in
  Forall (fun o => match o with OpInsert k _ => 0 <= k < kt_max i32 | OpErase _ _ => True end) os /\
  ck_fine i32 8 4 (bit_ops Z i32 4) (bt_new Z i32 4) (map bop_of os) = true /\
  (do tr <- bt_hist i32 8 4 (map bop_of os);
   do a <- bt_lookup i32 8 4 tr 30; do b <- bt_lookup i32 8 4 tr 20; do c <- bt_lookup i32 8 4 tr 45;
   do o <- bt_scan i32 4 tr; Ok (bdepth tr, a, b, c, map fst o)) = Ok (1%nat, Some 2, None, Some 7, [10; 30; 40; 45; 50; 60; 70; 80]).
Proof. split; [apply ops_b|split]; vm_compute; reflexivity. Qed.
Example C70_merge_ex : let os := up_b 20 ++ del_b [200; 190; 180; 170; 160; 150; 140; 130; 120; 110; 100; 90; 80; 70; 60; 50] in
  Forall (fun o => match o with OpInsert k _ => 0 <= k < kt_max i32 | OpErase _ _ => True end) os /\
  ck_fine i32 8 4 (bit_ops Z i32 4) (bt_new Z i32 4) (map bop_of os) = true /\
  (do tr <- bt_hist i32 8 4 (map bop_of os);
   do r <- be_erase i32 8 4 (bit_ops Z i32 4) tr 40; Ok (bdepth tr, ck_ok i32 8 4 (bit_ops Z i32 4) tr 40, map (fun k => bt_lookup i32 8 4 tr k) [10; 20; 30; 40; 50; 60], snd r, bdepth (fst r)))
   = Ok (1%nat, true, [Ok (Some 0); Ok (Some 1); Ok (Some 2); Ok (Some 3); Ok None; Ok None], true, 0%nat).
Proof. split; [apply ops_b|split]; vm_compute; reflexivity. Qed.
Example C70_bith_ex : let os := down_b 30 ++ del_b [10; 30; 90; 80] in
  Forall (fun o => match o with OpInsert k _ => 0 <= k < kt_max i32 | OpErase _ _ => True end) os /\
  ck_fine i32 5 4 (bh_ops Z i32 4) (bh_new Z i32 4) (map bop_of os) = true /\
  (do tr <- bith_hist 5 4 os;
   Ok (bdepth tr, map (fun k => bh_lookup i32 5 4 tr k) [10; 20; 70; 80; 90; 100; 300]))
   = Ok (2%nat, [Ok None; Ok (Some 28); Ok (Some 23); Ok None; Ok None; Ok (Some 20); Ok (Some 0)]).
Proof. split; [apply ops_b|split]; vm_compute; reflexivity. Qed.
