(** Prefixes of the stores of balanceLeafNodes: PBPTree. *)
From Verif Require Import Base RankModel BTreeModel SearchModel SLeafModel ULeafModel FLeafModel SlotLemmas FLeafProofs
  CrashModel CrashSpec CrashProofs CrashEProofs CrashSModel CrashSSpec CrashSProofs CrashUProofs CrashMModel CrashMSpec CrashMProofs CrashBModel CrashBSpec CrashBProofs.
Open Scope nat_scope.

Section Sorted.
Variables (V : Type) (M : nat).
Notation SS := (@s_slots V).
Notation W := (@c_wf V M).
Notation LI := (listed SS).
Notation ON := (once SS).
Notation X := (exec (@s_step V)).
Implicit Types (d r l : sleaf V).

(** [inb lo n x]: [x] is one of the [n] numbers from [lo]. *)
Definition inb (lo n x : nat) : bool := (lo <=? x) && (x <? lo + n).
Lemma inb_spec lo n x : reflect (lo <= x < lo + n) (inb lo n x).
Proof. unfold inb. destruct (lo <=? x) eqn:A, (x <? lo + n) eqn:B; constructor; rewrite ?Nat.leb_le, ?Nat.leb_gt, ?Nat.ltb_lt, ?Nat.ltb_ge in *; lia. Qed.
Ltac ib := repeat match goal with |- context [inb ?a ?b ?c] => destruct (inb_spec a b c) | |- context [?a =? ?b] => destruct (Nat.eqb_spec a b) end.

(** ** Making room *)
Definition gapped (t n a : nat) {A} (c : nat -> res A) : nat -> res A := fun x => if inb (n - a + t) a x then c (x - t) else c x.
Lemma gap_prefix t : forall n l, length (sk l) = M -> length (sv l) = M -> n + t <= M -> 0 < t ->
  (forall x, x < n -> exists k v, aget (sk l) x = Ok k /\ aget (sv l) x = Ok v) -> forall q, exists l',
  X l (firstn q (gap_stores V n t)) = Ok l' /\ sn l' = sn l /\ length (sk l') = M /\ length (sv l') = M /\
  (forall x, aget (sk l') x = gapped t n (Nat.min n ((q + 1) / 2)) (aget (sk l)) x) /\
  (forall x, aget (sv l') x = gapped t n (Nat.min n (q / 2)) (aget (sv l)) x).
Proof.
  induction n as [|n IH]; intros l LK LV HM Ht HF q; cbn [gap_stores].
  - rewrite firstn_nil. exists l. cbn [exec Nat.min]. splits; auto; intros x; unfold gapped; ib; auto; lia.
  - destruct (HF n) as (k & v & Ek & Ev); [lia|]. replace (S n - 1) with n by lia. replace (S n + t - 1) with (n + t) by lia.
    destruct (@aset_ok _ (sk l) (n + t) k) as (ks & EK); [lia|]. destruct (@aset_ok _ (sv l) (n + t) v) as (vs & EV); [lia|].
    destruct q as [|q]; [exists l; cbn [firstn exec]; splits; auto; intros x; unfold gapped; ib; auto; lia|].
    cbn [firstn exec s_step]. rewrite Ek. cbn [bind]. rewrite EK. cbn [bind]. destruct q as [|q].
    { cbn [firstn exec]. eexists. split; [reflexivity|]. cbn [sn sk sv]. splits; auto; [now rewrite (aset_length EK)| |]; intros x.
      - rewrite (aget_aset x EK). unfold gapped. change ((1 + 1) / 2) with 1. ib; try lia; auto. subst x. replace (n + t - t) with n by lia. auto.
      - unfold gapped. change (1 / 2) with 0. ib; auto; lia. }
    cbn [firstn exec s_step sn sk sv]. rewrite Ev. cbn [bind]. rewrite EV. cbn [bind].
    destruct (IH (SLeaf (sn l) ks vs)) with (q := q) as (l' & E & N' & LK' & LV' & GK & GV); cbn [sn sk sv]; auto; try lia.
    { now rewrite (aset_length EK). } { now rewrite (aset_length EV). }
    { intros x Hx. rewrite (aget_aset x EK), (aget_aset x EV). ib; [lia|]. apply HF. lia. }
    cbn [sn sk sv] in *. exists l'. splits; auto; intros x.
    + rewrite GK. unfold gapped. replace ((S (S q) + 1) / 2) with (S ((q + 1) / 2)) by lia. rewrite !(aget_aset _ EK). ib; try lia; auto. subst x. replace (n + t - t) with n by lia. auto.
    + rewrite GV. unfold gapped. replace (S (S q) / 2) with (S (q / 2)) by lia. rewrite !(aget_aset _ EV). ib; try lia; auto. subst x. replace (n + t - t) with n by lia. auto.
Qed.
Lemma gap_length t : forall n, length (gap_stores V n t) = 2 * n.
Proof. induction n as [|n IH]; cbn [gap_stores length]; lia. Qed.
Lemma gap_exec t : forall n l, X l (gap_stores V n t) =
  (do kv <- for_down n n (fun i kv => do ks <- (do x <- aget (fst kv) (i - 1); aset (fst kv) (i + t - 1) x);
                                      do vs <- (do x <- aget (snd kv) (i - 1); aset (snd kv) (i + t - 1) x);
                                      Ok (ks, vs)) (sk l, sv l);
   Ok (SLeaf (sn l) (fst kv) (snd kv))).
Proof.
  induction n as [|n IH]; intros l; cbn [gap_stores for_down exec]; [now destruct l|].
  cbn [s_step fst snd]. destruct (aget (sk l) (S n - 1)) as [k| |]; cbn [bind]; try reflexivity.
  destruct (aset (sk l) (S n + t - 1) k) as [ks| |]; cbn [bind sn sk sv]; try reflexivity.
  destruct (aget (sv l) (S n - 1)) as [v| |]; cbn [bind]; try reflexivity.
  destruct (aset (sv l) (S n + t - 1) v) as [vs| |]; cbn [bind sn sk sv]; try reflexivity. rewrite IH. cbn [sn sk sv]. reflexivity.
Qed.

(** ** Handing over *)
Definition given (d : sleaf V) {A} (src c : nat -> res A) (i j a : nat) : nat -> res A := fun x => if inb j a x then src (i + (x - j)) else c x.
Lemma give_some d : forall n i j rn, (forall x, i <= x < i + n -> exists k v, aget (sk d) x = Ok k /\ aget (sv d) x = Ok v) ->
  exists c, give_stores d n i j rn = Ok c /\ length c = 3 * n.
Proof.
  induction n as [|n IH]; intros i j rn H; cbn [give_stores]; [eauto|]. destruct (H i) as (k & v & -> & ->); [lia|]. cbn [bind].
  destruct (IH (S i) (S j) (S rn)) as (c & -> & L); [intros x Hx; apply H; lia|]. cbn [bind]. eexists. split; [reflexivity|]. cbn [length]. lia.
Qed.
Lemma give_prefix d : forall n i j l c, give_stores d n i j (sn l) = Ok c -> length (sk l) = M -> length (sv l) = M -> j + n <= M -> forall q, exists l',
  X l (firstn q c) = Ok l' /\ sn l' = sn l + Nat.min n (q / 3) /\ length (sk l') = M /\ length (sv l') = M /\
  (forall x, aget (sk l') x = given d (aget (sk d)) (aget (sk l)) i j (Nat.min n ((q + 2) / 3)) x) /\
  (forall x, aget (sv l') x = given d (aget (sv d)) (aget (sv l)) i j (Nat.min n ((q + 1) / 3)) x).
Proof.
  induction n as [|n IH]; intros i j l c E LK LV HM q; cbn [give_stores] in E.
  - injection E as <-. rewrite firstn_nil. exists l. cbn [exec Nat.min]. splits; auto; intros x; unfold given; ib; auto; lia.
  - destruct (aget (sk d) i) as [k| |] eqn:Ek; try discriminate. cbn [bind] in E. destruct (aget (sv d) i) as [v| |] eqn:Ev; try discriminate. cbn [bind] in E.
    destruct (give_stores d n (S i) (S j) (S (sn l))) as [r| |] eqn:Er; try discriminate. cbn [bind] in E. injection E as <-.
    destruct (@aset_ok _ (sk l) j k) as (ks & EK); [lia|]. destruct (@aset_ok _ (sv l) j v) as (vs & EV); [lia|].
    destruct q as [|q]; [exists l; cbn [firstn exec]; splits; auto; try (change (0 / 3) with 0; lia); intros x; unfold given; ib; auto; lia|].
    cbn [firstn exec s_step]. rewrite EK. cbn [bind]. destruct q as [|q].
    { cbn [firstn exec]. eexists. split; [reflexivity|]. cbn [sn sk sv]. splits; auto; [now rewrite (aset_length EK)| |]; intros x.
      - rewrite (aget_aset x EK). unfold given. change ((1 + 2) / 3) with 1. ib; try lia; auto. subst x. replace (i + (j - j)) with i by lia. auto.
      - unfold given. change ((1 + 1) / 3) with 0. ib; auto; lia. }
    cbn [firstn exec s_step sn sk sv]. rewrite EV. cbn [bind]. destruct q as [|q].
    { cbn [firstn exec]. eexists. split; [reflexivity|]. cbn [sn sk sv]. splits; auto; [now rewrite (aset_length EK)|now rewrite (aset_length EV)| |]; intros x.
      - rewrite (aget_aset x EK). unfold given. change ((2 + 2) / 3) with 1. ib; try lia; auto. subst x. replace (i + (j - j)) with i by lia. auto.
      - rewrite (aget_aset x EV). unfold given. change ((2 + 1) / 3) with 1. ib; try lia; auto. subst x. replace (i + (j - j)) with i by lia. auto. }
    cbn [firstn exec s_step sn sk sv bind].
    destruct (IH (S i) (S j) (SLeaf (S (sn l)) ks vs) r Er) with (q := q) as (l' & E & N' & LK' & LV' & GK & GV); cbn [sn sk sv]; auto; try lia.
    { now rewrite (aset_length EK). } { now rewrite (aset_length EV). }
    cbn [sn sk sv] in *. exists l'. splits; auto; [lia| |]; intros x.
    + rewrite GK. unfold given. replace ((S (S (S q)) + 2) / 3) with (S ((q + 2) / 3)) by lia. rewrite !(aget_aset _ EK). ib; try lia; auto; [f_equal; lia|]. subst x. replace (i + (j - j)) with i by lia. auto.
    + rewrite GV. unfold given. replace ((S (S (S q)) + 1) / 3) with (S ((q + 1) / 3)) by lia. rewrite !(aget_aset _ EV). ib; try lia; auto; [f_equal; lia|]. subst x. replace (i + (j - j)) with i by lia. auto.
Qed.
Lemma give_exec d bi bj : forall n m l c, give_stores d n (bi + m) (bj + m) (sn l) = Ok c -> X l c =
  (do kv <- for_up m n (fun m kv => do ks <- (do x <- aget (sk d) (bi + m); aset (fst kv) (bj + m) x);
                                    do vs <- (do x <- aget (sv d) (bi + m); aset (snd kv) (bj + m) x);
                                    Ok (ks, vs)) (sk l, sv l);
   Ok (SLeaf (sn l + n) (fst kv) (snd kv))).
Proof.
  induction n as [|n IH]; intros m l c E; cbn [give_stores] in E.
  - injection E as <-. cbn [exec for_up bind fst snd]. rewrite Nat.add_0_r. now destruct l.
  - destruct (aget (sk d) (bi + m)) as [k| |] eqn:Ek; try discriminate. cbn [bind] in E. destruct (aget (sv d) (bi + m)) as [v| |] eqn:Ev; try discriminate. cbn [bind] in E.
    destruct (give_stores d n (S (bi + m)) (S (bj + m)) (S (sn l))) as [r| |] eqn:Er; try discriminate. cbn [bind] in E. injection E as <-.
    cbn [exec s_step for_up fst snd]. rewrite Ek, Ev. cbn [bind]. destruct (aset (sk l) (bj + m) k) as [ks| |]; cbn [bind sn sk sv]; try reflexivity.
    destruct (aset (sv l) (bj + m) v) as [vs| |]; cbn [bind sn sk sv]; try reflexivity.
    rewrite <- !Nat.add_succ_r in Er. rewrite (IH (S m) (SLeaf (S (sn l)) ks vs) r Er). cbn [sn sk sv]. now rewrite Nat.add_succ_comm.
Qed.

(** ** Closing the gap *)
Definition closed (t i a : nat) {A} (c : nat -> res A) : nat -> res A := fun x => if inb i a x then c (t + x) else c x.
Lemma close_length t : forall n i, length (close_stores V n i t) = 2 * n.
Proof. induction n as [|n IH]; intros i; cbn [close_stores length]; [lia|]. rewrite IH. lia. Qed.
Lemma close_prefix t : 0 < t -> forall n i l, length (sk l) = M -> length (sv l) = M -> t + i + n <= M ->
  (forall x, i <= x < t + i + n -> exists k v, aget (sk l) x = Ok k /\ aget (sv l) x = Ok v) -> forall q, exists l',
  X l (firstn q (close_stores V n i t)) = Ok l' /\ sn l' = sn l /\ length (sk l') = M /\ length (sv l') = M /\
  (forall x, aget (sk l') x = closed t i (Nat.min n ((q + 1) / 2)) (aget (sk l)) x) /\
  (forall x, aget (sv l') x = closed t i (Nat.min n (q / 2)) (aget (sv l)) x).
Proof.
  intros Ht. induction n as [|n IH]; intros i l LK LV HM HF q; cbn [close_stores].
  - rewrite firstn_nil. exists l. cbn [exec Nat.min]. splits; auto; intros x; unfold closed; ib; auto; lia.
  - destruct (HF (t + i)) as (k & v & Ek & Ev); [lia|].
    destruct (@aset_ok _ (sk l) i k) as (ks & EK); [lia|]. destruct (@aset_ok _ (sv l) i v) as (vs & EV); [lia|].
    destruct q as [|q]; [exists l; cbn [firstn exec]; splits; auto; intros x; unfold closed; ib; auto; lia|].
    cbn [firstn exec s_step]. rewrite Ek. cbn [bind]. rewrite EK. cbn [bind]. destruct q as [|q].
    { cbn [firstn exec]. eexists. split; [reflexivity|]. cbn [sn sk sv]. splits; auto; [now rewrite (aset_length EK)| |]; intros x.
      - rewrite (aget_aset x EK). unfold closed. change ((1 + 1) / 2) with 1. ib; try lia; auto. subst x. auto.
      - unfold closed. change (1 / 2) with 0. ib; auto; lia. }
    cbn [firstn exec s_step sn sk sv]. rewrite Ev. cbn [bind]. rewrite EV. cbn [bind].
    destruct (IH (S i) (SLeaf (sn l) ks vs)) with (q := q) as (l' & E & N' & LK' & LV' & GK & GV); cbn [sn sk sv]; auto; try lia.
    { now rewrite (aset_length EK). } { now rewrite (aset_length EV). }
    { intros x Hx. rewrite (aget_aset x EK), (aget_aset x EV). ib; [lia|]. apply HF. lia. }
    cbn [sn sk sv] in *. exists l'. splits; auto; intros x.
    + rewrite GK. unfold closed. replace ((S (S q) + 1) / 2) with (S ((q + 1) / 2)) by lia. rewrite !(aget_aset _ EK). ib; try lia; auto. subst x. auto.
    + rewrite GV. unfold closed. replace (S (S q) / 2) with (S (q / 2)) by lia. rewrite !(aget_aset _ EV). ib; try lia; auto. subst x. auto.
Qed.
Lemma close_exec t : forall n i l, X l (close_stores V n i t) =
  (do kv <- for_up i n (fun i kv => do ks <- (do x <- aget (fst kv) (t + i); aset (fst kv) i x);
                                    do vs <- (do x <- aget (snd kv) (t + i); aset (snd kv) i x);
                                    Ok (ks, vs)) (sk l, sv l);
   Ok (SLeaf (sn l) (fst kv) (snd kv))).
Proof.
  induction n as [|n IH]; intros i l; cbn [close_stores for_up exec]; [now destruct l|].
  cbn [s_step fst snd]. destruct (aget (sk l) (t + i)) as [k| |]; cbn [bind]; try reflexivity.
  destruct (aset (sk l) i k) as [ks| |]; cbn [bind sn sk sv]; try reflexivity.
  destruct (aget (sv l) (t + i)) as [v| |]; cbn [bind]; try reflexivity.
  destruct (aset (sv l) i v) as [vs| |]; cbn [bind sn sk sv]; try reflexivity. rewrite IH. cbn [sn sk sv]. reflexivity.
Qed.

(** ** The whole *)
Lemma has_s l k v : has (SS l) k v <-> exists x, x < sn l /\ aget (sk l) x = Ok k /\ aget (sv l) x = Ok v.
Proof.
  split; intros [x H]; exists x; [now apply s_slots_live|]. destruct H as (A & B & C). now apply s_slots_at.
Qed.
Lemma has_cells l k v : has (cells l) k v <-> exists x, aget (sk l) x = Ok k /\ aget (sv l) x = Ok v.
Proof.
  unfold has, cells, pair_of. split; intros [x H]; exists x; [|destruct H as [-> ->]; auto].
  destruct (aget (sk l) x); try discriminate. destruct (aget (sv l) x); try discriminate. injection H as -> ->. auto.
Qed.

Theorem s_balance_right d r (d0 r0 : Z) : let bal := (sn d + sn r) / 2 in let tm := sn d - bal in
  W d -> W r -> ON (d, r) -> 0 < tm -> aget (sk d) 0 = Ok d0 -> aget (sk r) 0 = Ok r0 -> (d0 < r0)%Z ->
  exists p out, sl_balance_stores d r = Ok p /\ length p = 2 * sn r + 3 * tm + 1 /\ sl_balance d r = Ok out /\
  forall q, exists st, d_exec (@s_step V) (d, r) (firstn q p) = Ok st /\
    (q < length p -> fst st = d) /\
    (forall k v, has (SS r) k v -> has (cells (snd st)) k v) /\
    (q <= 2 * Nat.min (sn r) tm -> eqs (SS r) (SS (snd st))) /\
    (2 * sn r + 3 * tm <= q -> forall k v, LI st k v <-> LI (d, r) k v) /\
    (length p <= q -> st = out /\ ON st).
Proof.
  intros bal tm (LN & LK & LV & HF & U) (RN & RK & RV & RF & RU) HO Ht E0 F0 H0.
  assert (RT : sn r + tm <= M) by lia.
  destruct (@give_some d tm bal 0 (sn r)) as (g & Eg & Lg); [intros x Hx; apply HF; lia|].
  unfold sl_balance_stores, sl_balance. fold bal. fold tm. destruct (Nat.ltb_spec (sn d) bal); [lia|]. destruct (Nat.eqb_spec tm 0); [lia|].
  rewrite E0, F0. cbn [bind]. destruct (Z.ltb_spec d0 r0); [|lia]. rewrite Eg. cbn [bind].
  pose proof (@gap_prefix tm (sn r) r RK RV RT Ht RF) as GP.
  destruct (GP (2 * sn r)) as (l1 & X1 & N1 & K1 & V1 & GK1 & GV1). rewrite firstn_all2 in X1 by (rewrite gap_length; lia).
  assert (Eg' := Eg). rewrite <- N1 in Eg'. pose proof (give_prefix Eg' K1 V1 ltac:(lia)) as VP.
  assert (M1 : Nat.min (sn r) ((2 * sn r + 1) / 2) = sn r) by lia. assert (M2 : Nat.min (sn r) (2 * sn r / 2) = sn r) by lia. rewrite M1 in GK1. rewrite M2 in GV1. clear M1 M2.
  destruct (VP (3 * tm)) as (l2 & X2 & N2 & K2 & V2 & GK2 & GV2). rewrite firstn_all2 in X2 by lia.
  assert (M1 : Nat.min tm ((3 * tm + 2) / 3) = tm) by lia. assert (M2 : Nat.min tm ((3 * tm + 1) / 3) = tm) by lia. rewrite M1 in GK2. rewrite M2 in GV2. clear M1 M2.
  assert (N2' : sn l2 = sn r + tm) by lia. clear N2.
  assert (H2 : forall k v, has (SS l2) k v <-> (exists x, bal <= x < sn d /\ aget (sk d) x = Ok k /\ aget (sv d) x = Ok v) \/ has (SS r) k v).
  { intros k v. rewrite !has_s, N2'. split.
    - intros (x & Hx & A & B). rewrite GK2 in A. rewrite GV2 in B. unfold given in A, B. revert A B. ib; intros A B.
      + left. exists (bal + (x - 0)). splits; auto; lia.
      + right. rewrite GK1 in A. rewrite GV1 in B. unfold gapped in A, B. revert A B. ib; intros A B; [|lia]. exists (x - tm). splits; auto. lia.
    - intros [(x & Hx & A & B)|(x & Hx & A & B)].
      + exists (x - bal). rewrite GK2, GV2. unfold given. ib; [|lia]. replace (bal + (x - bal - 0)) with x by lia. splits; auto. lia.
      + exists (x + tm). rewrite GK2, GV2. unfold given. ib; [lia|]. rewrite GK1, GV1. unfold gapped. ib; [|lia]. replace (x + tm - tm) with x by lia. splits; auto. lia. }
  assert (XA : forall q, q <= 2 * sn r + 3 * tm -> firstn q (map (@DRec V) (gap_stores V (sn r) tm ++ g) ++ [DDon (SNum (sn d - tm))]) = map (@DRec V) (firstn q (gap_stores V (sn r) tm ++ g))).
  { intros q Hq. rewrite firstn_app, map_length, app_length, gap_length, Lg. replace (q - _) with 0 by lia. cbn [firstn]. now rewrite app_nil_r, firstn_map. }
  assert (XF : d_exec (@s_step V) (d, r) (map (@DRec V) (gap_stores V (sn r) tm ++ g)) = Ok (d, l2)).
  { apply (@d_rec V _ (@s_step V) (gap_stores V (sn r) tm ++ g) (d, r)). cbn [snd]. rewrite exec_app, X1. exact X2. }
  assert (XG := X1). assert (XH := X2). rewrite gap_exec in X1. destruct (for_down (sn r) (sn r) _ (sk r, sv r)) as [kv1| |]; try discriminate. cbn [bind] in X1. injection X1 as X1. cbn [bind].
  pose proof (@give_exec d bal 0 tm 0 l1 g) as GE. rewrite !Nat.add_0_r in GE. rewrite (GE Eg') in X2. clear GE. cbn [Nat.add] in X2.
  rewrite <- X1 in X2. cbn [sn sk sv] in X2. rewrite <- surjective_pairing in X2.
  destruct (for_up 0 tm _ kv1) as [kv2| |]; try discriminate. cbn [bind] in X2. injection X2 as X2. cbn [bind]. rewrite X2.
  exists (map (@DRec V) (gap_stores V (sn r) tm ++ g) ++ [DDon (SNum (sn d - tm))]), (SLeaf (sn d - tm) (sk d) (sv d), l2). splits; auto.
  { rewrite app_length, map_length, app_length, gap_length, Lg. cbn [length]. lia. }
  assert (LP : length (map (@DRec V) (gap_stores V (sn r) tm ++ g) ++ [DDon (SNum (sn d - tm))]) = 2 * sn r + 3 * tm + 1).
  { rewrite app_length, map_length, app_length, gap_length, Lg. cbn [length]. lia. }
  rewrite LP. intros q. destruct (Nat.le_gt_cases (2 * sn r + 3 * tm + 1) q) as [Hq|Hq].
  - rewrite firstn_all2 by lia. exists (SLeaf (sn d - tm) (sk d) (sv d), l2). rewrite d_exec_app, XF. cbn [bind d_exec d_step fst snd s_step].
    splits; auto; try (intros; lia).
    + intros k v (x & Hx & A & B)%has_s. apply has_cells. exists (x + tm). rewrite GK2, GV2. unfold given. ib; [lia|]. rewrite GK1, GV1. unfold gapped. ib; [|lia]. replace (x + tm - tm) with x by lia. auto.
    + intros _ k v. unfold listed. cbn [fst snd]. rewrite H2, !has_s. cbn [sn sk sv]. split.
      * intros [(x & Hx & A)|[(x & Hx & A)|A]]; [left; exists x; split; auto; lia| |right; auto]. left. exists x. split; auto; lia.
      * intros [(x & Hx & A)|A]; [|right; right; auto]. destruct (Nat.lt_ge_cases x bal); [left; exists x; split; auto; lia|]. right. left. exists x. split; auto; lia.
    + intros _. split; [reflexivity|]. intros k v w (x & Hx & A & B)%has_s Hw%H2. cbn [fst snd sn sk sv] in Hx, A, B. destruct Hw as [(y & Hy & C & D)|Hw].
      * enough (x = y) by lia. eapply (U x y k v w); apply s_slots_at; auto; lia.
      * eapply HO; [|exact Hw]. cbn [fst]. apply has_s. exists x. splits; eauto. lia.
  - rewrite XA by lia. destruct (Nat.le_gt_cases q (2 * sn r)) as [Hr|Hr].
    + destruct (GP q) as (l' & X' & N' & K' & V' & GK' & GV'). exists (d, l'). split.
      { rewrite firstn_app, gap_length. replace (q - _) with 0 by lia. cbn [firstn]. rewrite app_nil_r. now apply (@d_rec V _ (@s_step V) _ (d, r)). }
      cbn [fst snd]. splits; auto; try (intros; lia).
      * intros k v (x & Hx & A & B)%has_s. apply has_cells. destruct (Nat.lt_ge_cases x (sn r - Nat.min (sn r) (q / 2))).
        -- exists x. rewrite GK', GV'. unfold gapped. ib; try lia. auto.
        -- exists (x + tm). rewrite GK', GV'. unfold gapped. ib; try lia. replace (x + tm - tm) with x by lia. auto.
      * intros Hm i. unfold s_slots. rewrite N'. destruct (Nat.ltb_spec i (sn r)); [|reflexivity]. rewrite GK', GV'. unfold gapped. ib; try lia. reflexivity.
    + destruct (VP (q - 2 * sn r)) as (l' & X' & N' & K' & V' & GK' & GV'). exists (d, l'). split.
      { rewrite firstn_app, gap_length. rewrite (firstn_all2 (gap_stores V (sn r) tm)) by (rewrite gap_length; lia). apply (@d_rec V _ (@s_step V) _ (d, r)). cbn [snd].
        rewrite exec_app, XG. exact X'. }
      cbn [fst snd]. splits; auto; try (intros; lia).
      * intros k v (x & Hx & A & B)%has_s. apply has_cells. exists (x + tm). rewrite GK', GV'. unfold given. ib; try lia. rewrite GK1, GV1. unfold gapped. ib; try lia. replace (x + tm - tm) with x by lia. auto.
      * intros Hm k v. assert (l' = l2) as ->. { rewrite firstn_all2 in X' by lia. rewrite XH in X'. now injection X'. } unfold listed. cbn [fst snd]. rewrite H2. split; [|tauto].
        intros [A|[(x & Hx & A)|A]]; auto. left. apply has_s. exists x. split; auto. lia.
Qed.

Theorem s_balance_left d r (d0 r0 : Z) : let bal := (sn d + sn r) / 2 in let tm := sn d - bal in
  W d -> W r -> ON (d, r) -> 0 < tm -> aget (sk d) 0 = Ok d0 -> aget (sk r) 0 = Ok r0 -> (r0 <= d0)%Z ->
  exists p out, sl_balance_stores d r = Ok p /\ length p = 3 * tm + 2 * bal + 1 /\ sl_balance d r = Ok out /\
  forall q, exists st, d_exec (@s_step V) (d, r) (firstn q p) = Ok st /\
    (q <= 3 * tm -> fst st = d) /\
    (forall k v, LI (d, r) k v -> LI st k v) /\
    ((q - 3 * tm) mod 2 = 0 \/ length p <= q -> forall k v, LI st k v -> LI (d, r) k v) /\
    (q < 3 \/ length p <= q -> ON st) /\
    (3 <= q <= 3 * tm -> ~ ON st) /\
    (length p <= q -> st = out).
Proof.
  intros bal tm (LN & LK & LV & HF & U) (RN & RK & RV & RF & RU) HO Ht E0 F0 H0.
  assert (RT : sn r + tm <= M) by lia. assert (BT : bal + tm = sn d) by lia.
  destruct (@give_some d tm 0 (sn r) (sn r)) as (g & Eg & Lg); [intros x Hx; apply HF; lia|].
  unfold sl_balance_stores, sl_balance. fold bal. fold tm. destruct (Nat.ltb_spec (sn d) bal); [lia|]. destruct (Nat.eqb_spec tm 0); [lia|].
  rewrite E0, F0. cbn [bind]. destruct (Z.ltb_spec d0 r0); [lia|]. rewrite Eg. cbn [bind].
  pose proof (give_prefix Eg RK RV RT) as VP.
  pose proof (@close_prefix tm Ht bal 0 d LK LV ltac:(lia) ltac:(intros x Hx; apply HF; lia)) as CP.
  destruct (VP (3 * tm)) as (l2 & X2 & N2 & K2 & V2 & GK2 & GV2). rewrite firstn_all2 in X2 by lia.
  assert (M1 : Nat.min tm ((3 * tm + 2) / 3) = tm) by lia. assert (M2 : Nat.min tm ((3 * tm + 1) / 3) = tm) by lia. rewrite M1 in GK2. rewrite M2 in GV2. clear M1 M2.
  assert (N2' : sn l2 = sn r + tm) by lia. clear N2.
  destruct (CP (2 * bal)) as (d2 & Y2 & D2 & J2 & I2 & FK2 & FV2). rewrite firstn_all2 in Y2 by (rewrite close_length; lia).
  assert (M1 : Nat.min bal ((2 * bal + 1) / 2) = bal) by lia. assert (M2 : Nat.min bal (2 * bal / 2) = bal) by lia. rewrite M1 in FK2. rewrite M2 in FV2. clear M1 M2.
  assert (HR : forall q l', X r (firstn q g) = Ok l' -> forall k v, has (SS l') k v <-> has (SS r) k v \/ (exists x, x < Nat.min tm (q / 3) /\ aget (sk d) x = Ok k /\ aget (sv d) x = Ok v)).
  { intros q l' X'. destruct (VP q) as (l'' & X'' & N' & _ & _ & GK & GV). rewrite X' in X''. injection X'' as <-. intros k v. rewrite !has_s, N'. split.
    - intros (x & Hx & A & B). rewrite GK in A. rewrite GV in B. unfold given in A, B. revert A B. ib; intros A B; try lia.
      + right. exists (0 + (x - sn r)). splits; auto. lia.
      + left. exists x. splits; auto. lia.
    - intros [(x & Hx & A & B)|(x & Hx & A & B)].
      + exists x. rewrite GK, GV. unfold given. ib; try lia. splits; auto. lia.
      + exists (sn r + x). rewrite GK, GV. unfold given. ib; try lia. replace (0 + (sn r + x - sn r)) with x by lia. splits; auto. lia. }
  assert (H2 : forall k v, has (SS l2) k v <-> has (SS r) k v \/ (exists x, x < tm /\ aget (sk d) x = Ok k /\ aget (sv d) x = Ok v)).
  { intros k v. rewrite (HR (3 * tm) l2) by (rewrite firstn_all2 by lia; exact X2). replace (Nat.min tm (3 * tm / 3)) with tm by lia. reflexivity. }
  assert (XF : d_exec (@s_step V) (d, r) (map (@DRec V) g) = Ok (d, l2)) by now apply (@d_rec V _ (@s_step V) g (d, r)).
  pose (p := map (@DRec V) g ++ map (@DDon V) (close_stores V bal 0 tm ++ [SNum (sn d - tm)])).
  assert (LP : length p = 3 * tm + 2 * bal + 1).
  { unfold p. rewrite app_length, !map_length, app_length, close_length, Lg. cbn [length]. lia. }
  assert (EO : sl_balance d r = Ok (SLeaf (sn d - tm) (sk d2) (sv d2), l2)).
  { unfold sl_balance. fold bal. fold tm. destruct (Nat.ltb_spec (sn d) bal); [lia|]. destruct (Nat.eqb_spec tm 0); [lia|].
    rewrite E0, F0. cbn [bind]. destruct (Z.ltb_spec d0 r0); [lia|].
    pose proof (@give_exec d 0 (sn r) tm 0 r g) as GE. rewrite !Nat.add_0_r in GE. rewrite (GE Eg) in X2. clear GE. cbn [Nat.add] in X2.
    destruct (for_up 0 tm _ (sk r, sv r)) as [kv| |]; try discriminate. cbn [bind] in *. injection X2 as X2.
    rewrite close_exec in Y2. destruct (for_up 0 bal _ (sk d, sv d)) as [dkv| |]; try discriminate. cbn [bind] in *. injection Y2 as Y2.
    rewrite X2, <- Y2. reflexivity. }
  unfold sl_balance in EO. fold bal in EO. fold tm in EO. revert EO. destruct (Nat.ltb_spec (sn d) bal); [lia|]. destruct (Nat.eqb_spec tm 0); [lia|].
  rewrite E0, F0. cbn [bind]. destruct (Z.ltb_spec d0 r0); [lia|]. intros EO. rewrite EO.
  exists p, (SLeaf (sn d - tm) (sk d2) (sv d2), l2). splits; auto. rewrite LP. intros q.
  destruct (Nat.le_gt_cases q (3 * tm)) as [Hq|Hq].
  { destruct (VP q) as (l' & X' & _). exists (d, l'). split.
    { unfold p. rewrite firstn_app, map_length, Lg. replace (q - 3 * tm) with 0 by lia. cbn [firstn]. rewrite app_nil_r, firstn_map. now apply (@d_rec V _ (@s_step V) _ (d, r)). }
    pose proof (HR q l' X') as H'. unfold listed, once. cbn [fst snd]. splits; auto; try (intros; lia).
    - intros k v [A|A]; [auto|]. right. apply H'. auto.
    - intros _ k v [A|[A|(x & Hx & A)]%H']; auto. left. apply has_s. exists x. split; auto. lia.
    - intros [Hs|Hs]; [|lia]. intros k v w A [B|(x & Hx & B)]%H'; [eapply HO; eauto|]. replace (q / 3) with 0 in Hx by lia. lia.
    - intros Hs HN. destruct (HF 0) as (k & v & A & B); [lia|]. apply (HN k v v); [apply has_s; exists 0; splits; auto; lia|]. apply H'. right. exists 0. splits; auto. lia. }
  destruct (Nat.le_gt_cases (3 * tm + 2 * bal + 1) q) as [Hf|Hf].
  - rewrite firstn_all2 by lia. exists (SLeaf (sn d - tm) (sk d2) (sv d2), l2). split.
    { unfold p. rewrite d_exec_app, XF. cbn [bind]. apply (@d_don V _ (@s_step V) _ (d, l2)). cbn [fst]. rewrite exec_app, Y2. reflexivity. }
    assert (HD : forall k v, has (SS (SLeaf (sn d - tm) (sk d2) (sv d2))) k v <-> exists x, tm <= x < sn d /\ aget (sk d) x = Ok k /\ aget (sv d) x = Ok v).
    { intros k v. rewrite has_s. cbn [sn sk sv]. split; intros (x & Hx & A & B).
      - rewrite FK2 in A. rewrite FV2 in B. unfold closed in A, B. revert A B. ib; intros A B; try lia. exists (tm + x). splits; auto; lia.
      - exists (x - tm). rewrite FK2, FV2. unfold closed. ib; try lia. replace (tm + (x - tm)) with x by lia. splits; auto. lia. }
    unfold listed, once. cbn [fst snd]. splits; auto; try (intros; lia).
    + intros k v [(x & Hx & A)%has_s|A]; [|right; apply H2; auto]. destruct (Nat.lt_ge_cases x tm); [right; apply H2; right; exists x; auto|]. left. apply HD. exists x. auto.
    + intros _ k v [(x & Hx & A)%HD|[A|(x & Hx & A)]%H2]; auto; left; apply has_s; exists x; split; auto; lia.
    + intros _ k v w (x & Hx & A & B)%HD [C|(y & Hy & C & D)]%H2.
      * eapply HO; [|exact C]. cbn [fst]. apply has_s. exists x. splits; eauto. lia.
      * enough (x = y) by lia. eapply (U x y k v w); apply s_slots_at; auto; lia.
  - destruct (CP (q - 3 * tm)) as (d' & X' & N' & _ & _ & GK & GV). exists (d', l2). split.
    { unfold p. rewrite firstn_app, map_length, Lg. rewrite (firstn_all2 (map (@DRec V) g)) by (rewrite map_length; lia). rewrite d_exec_app, XF. cbn [bind].
      rewrite firstn_map, firstn_app, close_length. replace (q - 3 * tm - 2 * bal) with 0 by lia. cbn [firstn]. rewrite app_nil_r. now apply (@d_don V _ (@s_step V) _ (d, l2)). }
    unfold listed, once. cbn [fst snd]. splits; auto; try (intros; lia).
    + intros k v [(x & Hx & A & B)%has_s|A]; [|right; apply H2; auto]. destruct (Nat.lt_ge_cases x tm); [right; apply H2; right; exists x; auto|].
      left. apply has_s. destruct (Nat.lt_ge_cases (x - tm) (Nat.min bal ((q - 3 * tm) / 2))).
      * exists (x - tm). rewrite GK, GV. unfold closed. ib; try lia. replace (tm + (x - tm)) with x by lia. splits; auto. lia.
      * exists x. rewrite GK, GV. unfold closed. ib; try lia. splits; auto. lia.
    + intros [Hm|Hm]; [|lia]. intros k v [(x & Hx & A & B)%has_s|[A|(x & Hx & A)]%H2]; auto; [|left; apply has_s; exists x; split; auto; lia].
      rewrite GK in A. rewrite GV in B. unfold closed in A, B. revert A B. ib; intros A B; try lia; left; apply has_s.
      * exists (tm + x). splits; auto. lia.
      * exists x. splits; auto. lia.
Qed.
End Sorted.

(** * Bitmap leaves that the operations can produce *)
Lemma b_balance_crash : forall V t M (d r : fleaf V) out,
  f_reach t (fun _ => 0%Z) (fun _ => 0%Z) M d -> f_reach t (fun _ => 0%Z) (fun _ => 0%Z) M r -> once (f_slots M) (d, r) -> (N.of_nat M < BitmapModel.W)%N ->
  1 < fl_count d -> (forall k v, has (f_slots M d) k v -> kt_in t k) -> fl_balance t (fun _ => 0%Z) M d r = Ok out ->
  exists p, fl_balance_stores t M (fun _ => 0%Z) false d r = Ok p /\ length p = 4 * (fl_count d - (fl_count d + fl_count r) / 2) /\ forall q, exists st,
    d_exec (@f_step V M) (d, r) (firstn q p) = Ok st /\
    (forall l, l = fst st \/ l = snd st -> exists s, fl_scan M l = Ok s /\ reports (f_slots M l) s) /\
    (forall k v, listed (f_slots M) st k v <-> listed (f_slots M) (d, r) k v) /\
    (once (f_slots M) st <-> q mod 4 <> 3 \/ length p <= q) /\
    (length p <= q -> st = out).
Proof.
  intros V t M d r out Rd Rr HO HW HC HK E.
  destruct (@f_balance_crash V t false (fun _ => 0%Z) (fun _ => 0%Z) M (fun _ _ => eq_refl) d r out) as (p & Ep & Lp & H); auto;
    try (eapply reach_fine; eassumption); try (intros _; eapply zero_fps; eassumption).
  exists p. splits; auto. intros q. destruct (H q) as (st & X & Fd & A & B & C & D & G). cbn [plen] in *. exists st.
  destruct B as (Fr & B); [auto|]. splits; auto.
  - intros l [->| ->]; apply (f_scan_ok (fun _ => 0%Z) (fun _ => 0%Z)); [apply Fd|apply Fr].
  - intros k v. split; auto.
  - destruct (Nat.le_gt_cases (length p) q); [split; auto|]. split.
    + intros HN. left. intros Hq. apply D; auto.
    + intros [Hq|Hq]; [|lia]. apply C. pose proof (Nat.mod_upper_bound q 4). destruct (Nat.eq_dec (q mod 4) 0); [auto|]. right. left. split; auto. lia.
Qed.
Lemma fp_balance_crash : forall V t fp junk M (d r : fleaf V) out,
  f_reach t fp junk M d -> f_reach t fp junk M r -> once (f_slots M) (d, r) -> (N.of_nat M < BitmapModel.W)%N ->
  1 < fl_count d -> (forall k v, has (f_slots M d) k v -> kt_in t k) -> fl_balance t fp M d r = Ok out ->
  exists p, fl_balance_stores t M fp true d r = Ok p /\ length p = 5 * (fl_count d - (fl_count d + fl_count r) / 2) /\ forall q, exists st,
    d_exec (@f_step V M) (d, r) (firstn q p) = Ok st /\ f_agrees fp M (fst st) /\
    (forall k v, listed (f_slots M) (d, r) k v -> listed (f_slots M) st k v) /\
    (q mod 5 = 0 \/ q mod 5 = 4 \/ length p <= q -> f_agrees fp M (snd st) /\ forall k v, listed (f_slots M) st k v -> listed (f_slots M) (d, r) k v) /\
    (q mod 5 = 0 \/ length p <= q -> once (f_slots M) st) /\
    (q < length p -> q mod 5 = 4 -> ~ once (f_slots M) st) /\
    (length p <= q -> st = out).
Proof.
  intros V t fp junk M d r out Rd Rr HO HW HC HK E.
  destruct (@f_balance_crash V t true fp junk M (fun H => False_ind _ (diff_true_false H)) d r out) as (p & Ep & Lp & H); auto;
    try (eapply reach_fine; eassumption); try (intros Hf; discriminate).
  exists p. splits; auto. intros q. destruct (H q) as (st & X & Fd & A & B & C & D & G). cbn [plen] in *. exists st.
  splits; auto.
  - now apply fine_agrees.
  - intros Hq. destruct B as (Fr & B); [tauto|]. split; auto. now apply fine_agrees.
  - intros Hq. apply C. tauto.
Qed.
