(** C68, C69: BitHPBPTree (pbptrees/BitHPBPTree.hpp), insert, lookup, scan and recovery. *)
From Verif Require Import Base MapSpec RankModel BitmapModel BTreeModel BTreeSpec FLeafModel BitTreeModel InsSpec BitProofs
  RecoverModel RecoverProofs RecSpec BitHModel BitHProofs BitHRec PropUnsorted PropBit.
Open Scope Z_scope.

(** * C68 *)

(** M = 64: the split gives the sibling [b.flip()], which clears the bits of the upper half (C22). *)
Theorem C68_flip_refuted : exists (os : list (Z * Z)) k v, Forall (fun k => 0 <= k < kt_max i32) (map fst os) /\
  m_run (map (fun e => OpInsert (fst e) (snd e)) os) k = Some v /\
  (do tr <- bh_run i32 4 64 (bh_new Z i32 64) os; bh_lookup i32 4 64 tr k) = Ok None.
Proof. exists (asc_bit 70), 280, 40. split; [apply keys_b|split]; vm_compute; reflexivity. Qed.
Print Assumptions C68_flip_refuted.

(** Negative keys, as in BitPBPTree (C52). *)
Theorem C68_refuted : exists (os : list (Z * Z)) k v,
  m_run (map (fun e => OpInsert (fst e) (snd e)) os) k = Some v /\
  (do tr <- bh_run i32 2 2 (bh_new Z i32 2) os; bh_lookup i32 2 2 tr k) = Ok None.
Proof. exists [(1, 2); (2, 3); (3, 4); (-4, -3); (-3, -2); (-2, -1); (-1, 0); (0, 1)], (-4), (-3). vm_compute. auto. Qed.
Print Assumptions C68_refuted.

(** Missing: negative keys, the largest key, multiples of 64 for N and M. *)
Theorem C68_bith_map_partial : forall V t (N M : nat) (os : list (Z * V)),
  1 <= kt_bits t <= 64 -> (2 <= N)%nat -> (N mod 64 <> 0)%nat -> (2 <= M)%nat -> (M mod 64 <> 0)%nat -> (N.of_nat M < W)%N ->
  Forall (fun k => 0 <= k < kt_max t) (map fst os) ->
  exists tr, bh_run t N M (bh_new V t M) os = Ok tr /\
    forall k, 0 <= k < kt_max t -> bh_lookup t N M tr k = Ok (m_run (inserts os) k).
Proof.
  intros V t N M os Ht HN H64 HM HM64 HW HF.
  destruct (@bg_map V t N M Ht HN H64 HM (bh_ops V t M) (bh_rep t M) (bh_leaf_laws V HM HW Ht HM64) (@bh_rep_kok V t M) os) as (tr & E & H).
  - eapply Forall_impl; [|exact HF]. intros k Hk. now apply bkok_of.
  - exists tr. split; auto. intros k Hk. apply H. now apply bkok_of.
Qed.
Print Assumptions C68_bith_map_partial.
Example C68_ex : Forall (fun k => 0 <= k < kt_max i32) (map fst (scr_bit 90)) /\
  (do tr <- bh_run i32 3 4 (bh_new Z i32 4) (scr_bit 90);
   do a <- bh_lookup i32 3 4 tr 37; do b <- bh_lookup i32 3 4 tr 36; do c <- bh_lookup i32 3 4 tr 98; Ok (bdepth tr, a, b, c))
  = Ok (3%nat, Some 1, Some 31, m_run (inserts (scr_bit 90)) 98).
Proof. split; [apply keys_b|]; vm_compute; reflexivity. Qed.

(** Ascending histories are scanned right. *)
Theorem C68_ascending_partial : forall V t (N M : nat) (os : list (Z * V)),
  1 <= kt_bits t <= 64 -> (2 <= N)%nat -> (N mod 64 <> 0)%nat -> (2 <= M)%nat -> (M mod 64 <> 0)%nat -> (N.of_nat M < W)%N ->
  Forall (fun k => 0 <= k < kt_max t) (map fst os) -> ascending os ->
  exists tr out, bh_run t N M (bh_new V t M) os = Ok tr /\ bg_scan (bh_ops V t M) tr = Ok out /\
    enumerates (m_run (inserts os)) out /\ in_runs M out.
Proof.
  intros V t N M os Ht HN H64 HM HM64 HW HF HA.
  apply (@bg_scan_asc V t N M Ht HN H64 HM (bh_ops V t M) (bh_rep t M) (bh_leaf_laws V HM HW Ht HM64) (@bh_rep_kok V t M) os); auto.
  eapply Forall_impl; [|exact HF]. intros k Hk. now apply bkok_of.
Qed.
Print Assumptions C68_ascending_partial.
Example C68_asc_ex : Forall (fun k => 0 <= k < kt_max i32) (map fst (asc_bit 40)) /\ ascending (asc_bit 40) /\
  (do tr <- bh_run i32 3 3 (bh_new Z i32 3) (asc_bit 40); do o <- bg_scan (bh_ops Z i32 3) tr; Ok (bdepth tr, length o, firstn 5 (map fst o)))
  = Ok (3%nat, 40%nat, [0; 7; 21; 14; 35]).
Proof. split; [apply keys_b; vm_compute; reflexivity|]. split; [apply asc_b_ok|]; vm_compute; reflexivity. Qed.

(** * C69 *)
Definition r_ins (os : list (Z * Z)) : list (rop Z) := map (fun e => RIns (fst e) (snd e)) os.
Definition r_in t {V} (os : list (rop V)) : Prop := Forall (fun o => match o with RIns k _ => 0 <= k < kt_max t | RRestart => True end) os.
Lemma r_in_ops t {V} (os : list (rop V)) : r_in t os -> ops_in t os.
Proof. apply Forall_impl. intros [k v|]; auto. apply bkok_of. Qed.

(** Six ascending keys in five leaves, N = 3: recover() ends with a branch node of a single child, which
    is at children[0]; the search of a key without separators goes to children[N]. *)
Theorem C69_refuted : exists (os : list (Z * Z)) k v, Forall (fun k => 0 <= k < kt_max i32) (map fst os) /\
  m_run (inserts os) k = Some v /\
  (do tr <- bh_hist i32 3 2 (bh_new Z i32 2) (r_ins os); bh_lookup i32 3 2 tr k) = Ok (Some v) /\
  (do tr <- bh_hist i32 3 2 (bh_new Z i32 2) (r_ins os ++ [RRestart]); bh_lookup i32 3 2 tr k) = UB.
Proof. exists (asc_bit 6), 35, 5. split; [apply keys_b|repeat split]; vm_compute; reflexivity. Qed.
Print Assumptions C69_refuted.

(** If at each restart no digit of (number of leaves - 1) in base N + 1 is zero, inserts
    and lookups go on as if nothing had happened. *)
Theorem C69_recover_partial : forall V t (N M : nat) (os : list (rop V)),
  1 <= kt_bits t <= 64 -> (2 <= N)%nat -> (N mod 64 <> 0)%nat -> (2 <= M)%nat -> (M mod 64 <> 0)%nat -> (N.of_nat M < W)%N ->
  r_in t os ->
  (forall p q tr, os = p ++ RRestart :: q -> bh_hist t N M (bh_new V t M) p = Ok tr -> rec_fits N (leaf_count tr)) ->
  exists tr, bh_hist t N M (bh_new V t M) os = Ok tr /\
    forall k, 0 <= k < kt_max t -> bh_lookup t N M tr k = Ok (m_run (rops os) k).
Proof.
  intros V t N M os Ht HN H64 HM HM64 HW HF HR.
  destruct (@bh_hist_map V t N M Ht HN H64 HM HW HM64 os (r_in_ops HF) HR) as (tr & E & H).
  exists tr. split; auto. intros k Hk. apply H. now apply bkok_of.
Qed.
Print Assumptions C69_recover_partial.

(** Otherwise the first such restart leaves a tree in which looking up any key not below the stored ones reads an
    unset child pointer. *)
Theorem C69_lost : forall V t (N M : nat) (os : list (rop V)) tr k,
  1 <= kt_bits t <= 64 -> (2 <= N)%nat -> (N mod 64 <> 0)%nat -> (2 <= M)%nat -> (M mod 64 <> 0)%nat -> (N.of_nat M < W)%N ->
  r_in t os ->
  (forall p q tr', os = p ++ RRestart :: q -> bh_hist t N M (bh_new V t M) p = Ok tr' -> rec_fits N (leaf_count tr')) ->
  bh_hist t N M (bh_new V t M) os = Ok tr -> ~ rec_fits N (leaf_count tr) ->
  (forall x, m_run (rops os) x <> None -> x <= k) ->
  exists tr', bh_hist t N M (bh_new V t M) (os ++ [RRestart]) = Ok tr' /\ bh_lookup t N M tr' k = UB.
Proof.
  intros V t N M os tr k Ht HN H64 HM HM64 HW HF HR E NF Hk.
  exact (@bh_restart_lost V t N M Ht HN H64 HM HW HM64 os tr k (r_in_ops HF) HR E NF Hk).
Qed.
Print Assumptions C69_lost.

(** The scan right after a restart is right with every number of leaves, also where it was wrong before. *)
Theorem C69_scan : forall V t (N M : nat) (os : list (rop V)),
  1 <= kt_bits t <= 64 -> (2 <= N)%nat -> (N mod 64 <> 0)%nat -> (2 <= M)%nat -> (M mod 64 <> 0)%nat -> (N.of_nat M < W)%N ->
  r_in t os ->
  (forall p q tr, os = p ++ RRestart :: q -> bh_hist t N M (bh_new V t M) p = Ok tr -> rec_fits N (leaf_count tr)) ->
  exists tr out, bh_hist t N M (bh_new V t M) (os ++ [RRestart]) = Ok tr /\ bg_scan (bh_ops V t M) tr = Ok out /\
    enumerates (m_run (rops os)) out /\ in_runs M out.
Proof.
  intros V t N M os Ht HN H64 HM HM64 HW HF HR. exact (@bh_restart_scan V t N M Ht HN H64 HM HW HM64 os (r_in_ops HF) HR).
Qed.
Print Assumptions C69_scan.

(** A boolean form of [rec_fits] for the examples. *)
Fixpoint digits_b (fuel N n : nat) : bool :=
  match fuel with
  | O => true
  | S f => (n =? 0)%nat || (negb (n mod S N =? 0)%nat && digits_b f N (n / S N))
  end.
Lemma digits_b_ok N : forall fuel n, (n < fuel)%nat -> (1 <= N)%nat ->
  digits_b fuel N n = true <-> (forall j, (S N ^ j <= n)%nat -> ((n / S N ^ j) mod S N <> 0)%nat).
Proof.
  induction fuel as [|f IH]; intros n Hf HN; [lia|]. cbn [digits_b]. destruct (Nat.eqb_spec n 0) as [->|Hn].
  - cbn [orb]. split; auto. intros _ j Hj. pose proof (Nat.pow_nonzero (S N) j ltac:(lia)). lia.
  - cbn [orb]. assert (HD : (n / S N < n)%nat) by (apply Nat.div_lt; lia).
    assert (HS : forall j, (n / S N ^ S j = n / S N / S N ^ j)%nat).
    { intros j. rewrite Nat.pow_succ_r', Nat.div_div by (try apply Nat.pow_nonzero; lia). reflexivity. }
    rewrite andb_true_iff, negb_true_iff, Nat.eqb_neq, (IH (n / S N)%nat) by lia. split.
    + intros [H0 H] [|j] Hj; [cbn [Nat.pow]; now rewrite Nat.div_1_r|]. rewrite HS. apply H.
      apply Nat.div_le_lower_bound; [lia|]. now rewrite <- Nat.pow_succ_r'.
    + intros H. split.
      * specialize (H 0%nat). cbn [Nat.pow] in H. rewrite Nat.div_1_r in H. apply H. lia.
      * intros j Hj. rewrite <- HS. apply H. rewrite Nat.pow_succ_r'. etransitivity; [apply Nat.mul_le_mono_l, Hj|]. apply Nat.mul_div_le. lia.
Qed.
Lemma rec_fits_b N n : (1 <= N)%nat -> digits_b n N (n - 1) = true <-> rec_fits N n.
Proof.
  intros HN. unfold rec_fits. destruct n as [|n].
  - split; [|reflexivity]. intros _ j Hj. pose proof (Nat.pow_nonzero (S N) j ltac:(lia)). cbn [Nat.sub] in Hj. lia.
  - apply digits_b_ok; lia.
Qed.

(** Twelve keys, restart with 11 leaves (10 is 22 in base 4), five more, restart with 16 leaves (15 is 33), three more. *)
Definition c69_os : list (rop Z) :=
  r_ins (asc_bit 12) ++ RRestart :: r_ins (map (fun e => (fst e + 84, snd e)) (asc_bit 5)) ++ RRestart :: r_ins [(3, 1); (14, 7); (200, 8)].
Fixpoint fits_b (tr : btree Z) (os : list (rop Z)) : bool :=
  match os with
  | [] => true
  | RIns k v :: r => match bh_insert i32 3 2 tr k v with Ok tr' => fits_b tr' r | _ => true end
  | RRestart :: r => digits_b (leaf_count tr) 3 (leaf_count tr - 1) &&
      match bh_recover 3 (bh_ops Z i32 2) (bth tr) 0 with Ok tr' => fits_b tr' r | _ => true end
  end.
Lemma fits_b_ok os : forall tr, fits_b tr os = true -> forall p q tr', os = p ++ RRestart :: q -> bh_hist i32 3 2 tr p = Ok tr' -> rec_fits 3 (leaf_count tr').
Proof.
  induction os as [|o os IH]; intros tr H p q tr' E Ep; [destruct p; discriminate|]. destruct p as [|o' p].
  - injection E as -> ->. injection Ep as <-. cbn [fits_b] in H. apply andb_prop in H as [H _]. apply rec_fits_b; [lia|exact H].
  - injection E as <- E. destruct o as [k v|]; cbn [fits_b bh_hist] in *.
    + destruct (bh_insert i32 3 2 tr k v) as [t1| |]; try discriminate Ep. cbn [bind] in Ep. eapply IH; eauto.
    + apply andb_prop in H as [_ H]. destruct (bh_recover 3 (bh_ops Z i32 2) (bth tr) 0) as [t1| |]; try discriminate Ep. cbn [bind] in Ep. eapply IH; eauto.
Qed.
Lemma r_in_b os : forallb (fun o : rop Z => match o with RIns k _ => (0 <=? k) && (k <? kt_max i32) | RRestart => true end) os = true -> r_in i32 os.
Proof. intros H. apply Forall_forall. intros o Ho. rewrite forallb_forall in H. specialize (H o Ho). destruct o; [lia|exact I]. Qed.

Example C69_ex : r_in i32 c69_os /\
  (forall p q tr, c69_os = p ++ RRestart :: q -> bh_hist i32 3 2 (bh_new Z i32 2) p = Ok tr -> rec_fits 3 (leaf_count tr)) /\
  (do tr <- bh_hist i32 3 2 (bh_new Z i32 2) c69_os;
   do a <- bh_lookup i32 3 2 tr 35; do b <- bh_lookup i32 3 2 tr 112; do c <- bh_lookup i32 3 2 tr 14; do d <- bh_lookup i32 3 2 tr 200;
   Ok (leaf_count tr, bdepth tr, a, b, c, d)) = Ok (17%nat, 3%nat, Some 5, Some 4, Some 7, Some 8).
Proof. split; [apply r_in_b; vm_compute; reflexivity|]. split; [apply fits_b_ok|]; vm_compute; reflexivity. Qed.
Example C69_lost_ex : r_in i32 (r_ins (asc_bit 10)) /\
  (do tr <- bh_hist i32 3 2 (bh_new Z i32 2) (r_ins (asc_bit 10)); Ok (leaf_count tr)) = Ok 9%nat /\ ~ rec_fits 3 9 /\
  (do tr <- bh_hist i32 3 2 (bh_new Z i32 2) (r_ins (asc_bit 10) ++ [RRestart]);
   do a <- bh_lookup i32 3 2 tr 28; do o <- bg_scan (bh_ops Z i32 2) tr; Ok (a, length o)) = Ok (Some 4, 10%nat) /\
  (do tr <- bh_hist i32 3 2 (bh_new Z i32 2) (r_ins (asc_bit 10) ++ [RRestart]); bh_lookup i32 3 2 tr 63) = UB.
Proof.
  split; [apply r_in_b; vm_compute; reflexivity|]. split; [vm_compute; reflexivity|]. split.
  - rewrite <- rec_fits_b by lia. vm_compute. discriminate.
  - split; vm_compute; reflexivity.
Qed.
(** Descending keys: the scan is wrong before the restart and right after it. *)
Definition c69_desc : list (Z * Z) := [(50, 51); (40, 41); (30, 31); (20, 21); (10, 11); (5, 6); (3, 4)].
Example C69_scan_ex : r_in i32 (r_ins c69_desc) /\
  (do tr <- bh_hist i32 4 4 (bh_new Z i32 4) (r_ins c69_desc); do o <- bg_scan (bh_ops Z i32 4) tr; Ok (map fst o)) = Ok [30; 20; 50; 40] /\
  (do tr <- bh_hist i32 4 4 (bh_new Z i32 4) (r_ins c69_desc ++ [RRestart]); do o <- bg_scan (bh_ops Z i32 4) tr; Ok (map fst o)) = Ok [10; 5; 3; 30; 20; 50; 40].
Proof. split; [apply r_in_b; vm_compute; reflexivity|]. split; vm_compute; reflexivity. Qed.
