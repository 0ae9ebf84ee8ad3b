(** C91: erases after a restart of the hybrid trees. *)
From Verif Require Import Base MapSpec SortedList RankModel BitmapModel BTreeModel BTreeSpec BTreeLaws BTreeHist BTreeInsert SLeafModel SLeafProofs
  BTreeMain FLeafModel FLeafProofs EraseSpec EraseG RecoverModel PropUnsorted CutModel RecEModel RecESpec RecEProofs.
Open Scope nat_scope.

Definition tens (n : nat) : list Z := map (fun i => 10 * Z.of_nat i)%Z (seq 1 n).
Definition xi (ks : list Z) : list (xop Z) := map (fun k => XIns k (k + 1)%Z) ks.
Definition xd (ks : list Z) : list (xop Z) := map (fun k => XDel k) ks.
Definition F4 := fp_ops Z i32 fpHash (fun _ => 0%Z) 4.
Definition P4 := pbp_ops Z 4.
Definition lost {L} (O : leafops L Z) (t : tree L) (ks : list Z) : nat :=
  length (filter (fun x => match t_lookup O t x with Ok (Some v) => negb (v =? x + 1)%Z | _ => true end) ks).

(** Eight leaves: recover() puts the last one alone under a branch node, and the erases that would take it below
    its minimum find no neighbour, although the same erases work without the restart. *)
Theorem C91_refuted : exists (is ds : list Z),
  (do t <- x_run 6 4 F4 false (t_new F4) (xi is ++ xd ds); Ok (lost F4 t (filter (fun x => negb (existsb (Z.eqb x) ds)) is))) = Ok 0 /\
  (do t <- x_run 6 4 F4 false (t_new F4) (xi is ++ [XRestart]); Ok (lost F4 t is)) = Ok 0 /\
  x_run 6 4 F4 false (t_new F4) (xi is ++ [XRestart] ++ xd ds) = UB.
Proof. exists (tens 17), [170; 160; 150]%Z. repeat split; vm_compute; reflexivity. Qed.
Print Assumptions C91_refuted.

(** With nine leaves one erase replaces the whole tree by a single leaf read as a branch node: every lookup is
    undefined afterwards. *)
Theorem C91_lost_refuted : exists (is : list Z) d k,
  let left := filter (fun x => negb (x =? d)%Z && negb (x =? k)%Z) is in
  (do t <- x_run 6 4 F4 false (t_new F4) (xi is ++ [XDel d; XRestart]); Ok (lost F4 t left, leaves_of t)) = Ok (0, 9) /\
  (do t <- x_run 6 4 F4 false (t_new F4) (xi is ++ [XDel d; XDel k]); Ok (lost F4 t left)) = Ok 0 /\
  (do t <- x_run 6 4 F4 false (t_new F4) (xi is ++ [XDel d; XRestart; XDel k]); Ok (map (t_lookup F4 t) left)) = Ok (repeat UB 17).
Proof. exists (tens 19), 190%Z, 180%Z. cbv zeta. repeat split; vm_compute; reflexivity. Qed.
Print Assumptions C91_lost_refuted.

Theorem C91_hpbptree_refuted : exists (is ds : list Z),
  (do t <- x_run 6 4 P4 true (t_new P4) (xi is ++ xd ds); Ok (lost P4 t (filter (fun x => negb (existsb (Z.eqb x) ds)) is))) = Ok 0 /\
  (do t <- x_run 6 4 P4 true (t_new P4) (xi is ++ [XRestart]); Ok (lost P4 t is)) = Ok 0 /\
  x_run 6 4 P4 true (t_new P4) (xi is ++ [XRestart] ++ xd ds) = UB.
Proof. exists (tens 15), [150; 140; 130]%Z. repeat split; vm_compute; reflexivity. Qed.
Print Assumptions C91_hpbptree_refuted.

Theorem C91_hpbptree_lost_refuted : exists (is : list Z) d k,
  let left := filter (fun x => negb (x =? d)%Z && negb (x =? k)%Z) is in
  (do t <- x_run 6 4 P4 true (t_new P4) (xi is ++ [XDel d; XRestart]); Ok (lost P4 t left)) = Ok 0 /\
  (do t <- x_run 6 4 P4 true (t_new P4) (xi is ++ [XDel d; XDel k]); Ok (lost P4 t left)) = Ok 0 /\
  (do t <- x_run 6 4 P4 true (t_new P4) (xi is ++ [XDel d; XRestart; XDel k]); Ok (map (t_lookup P4 t) left)) = Ok (repeat UB 15).
Proof. exists (tens 17), 170%Z, 160%Z. cbv zeta. repeat split; vm_compute; reflexivity. Qed.
Print Assumptions C91_hpbptree_lost_refuted.

(** FPTree, any mixture of inserts, erases, restarts, and inserts and erases cut short between two levels and
    followed by a restart, provided every restart finds a number of leaves that leaves no branch node of the
    right edge with fewer than two keys (and, as in C05, balancing moves go the right way). *)
Theorem C91_partial : forall V t fp junk N M (os : list (xop V)),
  let O := fp_ops V t fp junk M in
  2 <= M -> (N.of_nat M < W)%N -> (1 <= kt_bits t <= 64)%Z -> 6 <= N -> Nat.even N = true ->
  Forall (xkeys_ok (fun k => kt_in t k /\ (k < kt_max t)%Z)) os -> xfine N M O (slots_ok M) (t_new O) os = true ->
  exists tr out, x_run N M O false (t_new O) os = Ok tr /\
    (forall k, t_lookup O tr k = Ok (m_run (xops os) k)) /\
    t_scan O tr = Ok out /\ enumerates (m_run (xops os)) out /\
    (forall lo hi, exists rng, t_range O tr lo hi = Ok rng /\ enumerates_range (m_run (xops os)) lo hi rng) /\
    shape N M (M / 2) 2 O (th tr) (tdepth tr) true (troot tr) (length out) /\
    (forall k, leaf_guard M O (slots_ok M) (th tr) (tdepth tr) (troot tr) k = Ok true ->
      exists tr' b, t_erase N M O tr k = Ok (tr', b) /\ (b = true <-> m_run (xops os) k <> None) /\
        forall x, t_lookup O tr' x = Ok (m_del (m_run (xops os)) k x)).
Proof.
  intros V t fp junk N M os O HM HW Ht HN HE F G. destruct (even_half HE) as [H1 H2].
  apply (@x_all _ V N M O _ _ _ (M / 2) _ (flm_laws V fp junk HM HW Ht) (@fl_core V t fp junk N M HM HW HN)); auto; try lia.
  - exact (@slots_good V t fp junk N M HM HW HN).
  - apply fl_absent_fine.
  - intros l es x v [HR HZ]. apply (@fl_minkey_ok V t fp M l es x v). split; auto.
    intros w [= -> -> ->]. inversion HZ as [|? ? Hlt _]. cbn [fst] in Hlt. lia.
  - intros l es' lo' hi' [HR _]. exact (fl_range_ok lo' hi' HR).
Qed.
Print Assumptions C91_partial.

(** Conversely, whenever the number of leaves is one more than a multiple of N + 1, the last leaf is alone under
    its branch node, and an erase that takes it below (M + 1) / 2 entries is undefined. *)
Theorem C91_lone : forall V t fp junk N M (os : list (xop V)) tr k j l,
  let O := fp_ops V t fp junk M in
  2 <= M -> (N.of_nat M < W)%N -> (1 <= kt_bits t <= 64)%Z -> 6 <= N -> Nat.even N = true ->
  Forall (xkeys_ok (fun k => kt_in t k /\ (k < kt_max t)%Z)) os -> xfine N M O (slots_ok M) (t_new O) os = true ->
  x_run N M O false (t_new O) os = Ok tr -> 1 < leaves_of tr -> leaves_of tr mod (S N) = 1 ->
  m_run (xops os) k <> None -> find_leaf O (th tr) (tdepth tr) (troot tr) k = Ok j -> hnx (th tr) j = None ->
  hl (th tr) j = Some l -> fl_count l <= (M + 1) / 2 ->
  exists tr', x_run N M O false (t_new O) (os ++ [XRestart]) = Ok tr' /\ (forall x, t_lookup O tr' x = Ok (m_run (xops os) x)) /\
    x_run N M O false (t_new O) (os ++ [XRestart; XDel k]) = UB.
Proof.
  intros V t fp junk N M os tr k j l O HM HW Ht HN HE F G ER L1 L2 HK EF EX El HC. destruct (even_half HE) as [H1 H2].
  destruct (@restart_lone _ V N M O _ _ _ (M / 2) _ (flm_laws V fp junk HM HW Ht) (@fl_core V t fp junk N M HM HW HN) ltac:(lia) ltac:(lia) ltac:(lia) ltac:(lia) ltac:(lia)
    _ (@slots_good V t fp junk N M HM HW HN) (@fl_absent_fine V t fp junk M)) with (os := os) (t := tr) (k := k) (j := j) (l := l) as (tr' & E1 & E2 & E3); auto.
  - intros l0 es x v [HR HZ]. apply (@fl_minkey_ok V t fp M l0 es x v). split; auto.
    intros w [= -> -> ->]. inversion HZ as [|? ? Hlt _]. cbn [fst] in Hlt. lia.
  - exists tr'. split; [|split; [exact E2|]]; rewrite x_run_app, ER; cbn [bind x_run x_step x_left]; rewrite E1; cbn [bind]; [reflexivity|].
    unfold x_step. cbn [x_left bind]. rewrite E3. reflexivity.
Qed.
Print Assumptions C91_lone.

Example C91_lone_ex : let os := xi (tens 17) ++ xd [170]%Z in
  xfine 6 4 F4 (slots_ok 4) (t_new F4) os = true /\ m_run (xops os) 160%Z = Some 161%Z /\
  (do tr <- x_run 6 4 F4 false (t_new F4) os; do j <- find_leaf F4 (th tr) (tdepth tr) (troot tr) 160%Z; do l <- getl (th tr) j;
   Ok (leaves_of tr, leaves_of tr mod 7, hnx (th tr) j, fl_count l)) = Ok (8, 1, None, 2) /\
  (do tr <- x_run 6 4 F4 false (t_new F4) (os ++ [XRestart]); do l <- t_lookup F4 tr 160%Z; Ok (l, tdepth tr)) = Ok (Some 161%Z, 2) /\
  x_run 6 4 F4 false (t_new F4) (os ++ [XRestart; XDel 160%Z]) = UB.
Proof. cbv zeta. repeat split; vm_compute; reflexivity. Qed.

(** Fourteen leaves at the first restart; merges and balancing moves after it, an insert and an erase cut short. *)
Definition ex_os : list (xop Z) :=
  xi (tens 30) ++ [XRestart] ++ xd [300; 290; 280; 15; 10]%Z ++ [XInsCut 0 25%Z 26%Z] ++ xi [26; 27; 28]%Z ++ [XDelCut 1 28%Z] ++ xd [180; 40]%Z.
Example C91_ex :
  Forall (xkeys_ok (fun k => kt_in i32 k /\ (k < kt_max i32)%Z)) ex_os /\ xfine 6 4 F4 (slots_ok 4) (t_new F4) ex_os = true /\
  (do t <- x_run 6 4 F4 false (t_new F4) (xi (tens 30)); Ok (leaves_of t, tdepth t)) = Ok (14, 2) /\
  (do t <- x_run 6 4 F4 false (t_new F4) ex_os; do s <- t_scan F4 t; Ok (leaves_of t, tdepth t, length s)) = Ok (12, 2, 27) /\
  m_run (xops ex_os) 25%Z = Some 26%Z /\ m_run (xops ex_os) 28%Z = None.
Proof.
  split; [|repeat split; vm_compute; reflexivity].
  apply Forall_forall. intros o Ho.
  assert (H : forallb (fun o => match o with XIns k _ | XInsCut _ k _ => (0 <=? k) && (k <=? 1000) | _ => true end)%Z ex_os = true) by (vm_compute; reflexivity).
  rewrite forallb_forall in H. specialize (H o Ho). destruct o; cbn [xkeys_ok]; auto; apply andb_prop in H as [H1 H2];
    apply Z.leb_le in H1; apply Z.leb_le in H2; unfold kt_in, kt_max, kt_min, i32; cbn; lia.
Qed.
