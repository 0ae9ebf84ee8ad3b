(** C16: FPTree recovery; C11: HPBPTree recovery. *)
From Verif Require Import Base MapSpec SortedList RankModel BitmapModel BTreeModel BTreeSpec BTreeLaws BTreeHist BTreeInsert SLeafModel SLeafProofs ULeafModel
  BTreeMain FLeafModel FLeafProofs RecoverModel RecoverProofs PropUnsorted.
Open Scope nat_scope.

(** * C16: inserts and restarts in any order behave like the inserts alone. *)
Theorem C16_fptree_recover_map : forall V t fp junk N M (rs : list (rop V)),
  2 <= M -> (N.of_nat M < W)%N -> 2 <= N -> (1 <= kt_bits t <= 64)%Z -> Forall (rok (kt_in t)) rs ->
  exists tr, r_run N (fp_ops V t fp junk M) false (t_new (fp_ops V t fp junk M)) rs = Ok tr /\
    forall k, t_lookup (fp_ops V t fp junk M) tr k = Ok (m_run (rops rs) k).
Proof.
  intros V t fp junk N M rs HM HW HN Ht. exact (r_lookup (flz_laws V fp junk HM HW Ht) (@fl_minkey_ok V t fp M) HN (div2_pos HM) (rs := rs)).
Qed.
Print Assumptions C16_fptree_recover_map.

Theorem C16_fptree_recover_scan : forall V t fp junk N M (rs : list (rop V)),
  2 <= M -> (N.of_nat M < W)%N -> 2 <= N -> (1 <= kt_bits t <= 64)%Z -> Forall (rok (kt_in t)) rs ->
  exists tr out, r_run N (fp_ops V t fp junk M) false (t_new (fp_ops V t fp junk M)) rs = Ok tr /\
    t_scan (fp_ops V t fp junk M) tr = Ok out /\ enumerates (m_run (rops rs)) out /\ in_runs M out.
Proof.
  intros V t fp junk N M rs HM HW HN Ht. exact (r_scan (flz_laws V fp junk HM HW Ht) (@fl_minkey_ok V t fp M) HN (div2_pos HM) (rs := rs)).
Qed.
Print Assumptions C16_fptree_recover_scan.

Theorem C16_fptree_recover_range : forall V t fp junk N M (rs : list (rop V)) lo hi,
  2 <= M -> (N.of_nat M < W)%N -> 2 <= N -> (1 <= kt_bits t <= 64)%Z -> Forall (rok (kt_in t)) rs ->
  exists tr out, r_run N (fp_ops V t fp junk M) false (t_new (fp_ops V t fp junk M)) rs = Ok tr /\
    t_range (fp_ops V t fp junk M) tr lo hi = Ok out /\ enumerates_range (m_run (rops rs)) lo hi out.
Proof.
  intros V t fp junk N M rs lo hi HM HW HN Ht.
  exact (r_range (flz_laws V fp junk HM HW Ht) (@fl_minkey_ok V t fp M) HN (div2_pos HM) (@fl_range_law V t fp junk M) lo hi (rs := rs)).
Qed.
Print Assumptions C16_fptree_recover_range.

Definition rins (ks : list Z) : list (rop Z) := map (fun k => RIns k (k + 1)%Z) ks.

Lemma rok_chk (rs : list (rop Z)) :
  forallb (fun r => match r with RIns k _ => (-2147483648 <=? k) && (k <=? 2147483647) | RRestart => true end)%Z rs = true ->
  Forall (rok (kt_in i32)) rs.
Proof.
  rewrite forallb_forall, Forall_forall. intros H r Hr. specialize (H r Hr). destruct r as [k v|]; [|exact I].
  cbn [rok]. apply (Forall_inv (@ins_of_ok [k] ltac:(cbn [forallb]; rewrite H; reflexivity))).
Qed.

Example C16_ex : let O := fp_ops Z i32 fpHash (fun _ => 0%Z) 3 in
  let rs := rins (scrambled 40) ++ RRestart :: rins [1; 3; 2; -7]%Z ++ RRestart :: RRestart :: rins (map (Z.add 1000) (scrambled 20)) in
  Forall (rok (kt_in i32)) rs /\
  (do tr <- r_run 4 O false (t_new O) rs;
   do a <- t_lookup O tr (-7)%Z; do b <- t_lookup O tr 5000%Z; do s <- t_scan O tr; Ok (tdepth tr, a, b, length s)) =
  Ok (3, Some (-6)%Z, None, length (nodup Z.eq_dec (scrambled 40 ++ [1; 3; 2; -7]%Z ++ map (Z.add 1000) (scrambled 20)))).
Proof.
  cbv zeta. split; [apply rok_chk; vm_compute; reflexivity|vm_compute; reflexivity].
Qed.

(** * C11: the recovered HPBPTree answers lookups, but its first leaf is registered twice, and a
    later split of that leaf loses entries. *)
Theorem C11_refuted : exists (a b : list Z) k,
  let O := pbp_ops Z 4 in
  m_run (rops (rins a ++ RRestart :: rins b)) k = Some (k + 1)%Z /\
  (do tr <- r_run 4 O true (t_new O) (rins a ++ [RRestart]); t_lookup O tr k) = Ok (Some (k + 1)%Z) /\
  (do tr <- r_run 4 O true (t_new O) (rins a ++ RRestart :: rins b); t_lookup O tr k) = Ok None.
Proof.
  exists [10; 20; 30; 40; 50]%Z, [5; 4; 3; 2; 1]%Z, 20%Z. cbv zeta.
  split; [vm_compute; reflexivity|]. split; vm_compute; reflexivity.
Qed.
Print Assumptions C11_refuted.

(** What does hold: right after recover() every lookup and the full scan are right. *)
Theorem C11_recover_lookup_partial : forall V N M (os : list (mop V)),
  2 <= M -> 2 <= N -> Forall (ins_ok (fun _ => True)) os ->
  exists t t' out, t_run N M (pbp_ops V M) (t_new (pbp_ops V M)) (map bop_of os) = Ok t /\
    recover N (pbp_ops V M) true (th t) 0 = Ok t' /\
    (forall k, t_lookup (pbp_ops V M) t' k = Ok (m_run os k)) /\
    t_scan (pbp_ops V M) t' = Ok out /\ lists (m_run os) out.
Proof.
  intros V N M os HM HN. exact (hyb_lookup (pbp_laws V HM) (law_minkey (pbp_erase_laws V HM)) HN (div2_pos HM) (pbp_scan_laws V HM) (os := os)).
Qed.
Print Assumptions C11_recover_lookup_partial.

(** Without the second registration (FPTree's loop) HPBPTree's leaves recover correctly. *)
Theorem C11_single_registration_partial : forall V N M (rs : list (rop V)),
  2 <= M -> 2 <= N ->
  exists tr, r_run N (pbp_ops V M) false (t_new (pbp_ops V M)) rs = Ok tr /\
    forall k, t_lookup (pbp_ops V M) tr k = Ok (m_run (rops rs) k).
Proof.
  intros V N M rs HM HN. exact (r_lookup (pbp_laws V HM) (law_minkey (pbp_erase_laws V HM)) HN (div2_pos HM) (rok_true rs)).
Qed.
Print Assumptions C11_single_registration_partial.

Example C11_ex :
  Forall (ins_ok (fun _ => True)) (ins_of (scrambled 60)) /\
  (do t <- t_run 4 3 (pbp_ops Z 3) (t_new (pbp_ops Z 3)) (map bop_of (ins_of (scrambled 60)));
   do t' <- recover 4 (pbp_ops Z 3) true (th t) 0;
   do a <- t_lookup (pbp_ops Z 3) t' (-13)%Z; do s <- t_scan (pbp_ops Z 3) t'; Ok (tdepth t, tdepth t', a, length s)) =
  Ok (3, 3, Some (-12)%Z, 60).
Proof. split; [|vm_compute; reflexivity]. apply Forall_forall. intros o Ho. apply in_map_iff in Ho as (k & <- & _). exact I. Qed.
