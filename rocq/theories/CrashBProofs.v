(** Prefixes of the stores of balanceLeafNodes. *)
From Verif Require Import Base RankModel RankProofs BitmapModel BitmapProofs PopcountProofs BTreeModel SearchModel SLeafModel ULeafModel FLeafModel SlotLemmas FLeafProofs
  CrashModel CrashSpec CrashProofs CrashEProofs CrashSModel CrashSSpec CrashSProofs CrashUProofs CrashMModel CrashMSpec CrashMProofs CrashBModel CrashBSpec.
Open Scope nat_scope.

Section Exec.
Variables (V L : Type) (step : L -> store V -> res L).
Notation X := (d_exec step).
Lemma d_exec_app (p q : list (dstore V)) : forall (st : L * L), X st (p ++ q) = do s <- X st p; X s q.
Proof. induction p as [|x p IH]; intros st; cbn [app d_exec bind]; [reflexivity|]. destruct (d_step step st x); cbn [bind]; auto. Qed.
Lemma d_rec p : forall (st : L * L) l', exec step (snd st) p = Ok l' -> X st (map DRec p) = Ok (fst st, l').
Proof.
  induction p as [|s p IH]; intros st l' E; cbn [map d_exec exec d_step] in *.
  - injection E as <-. now destruct st.
  - destruct (step (snd st) s) as [a| |]; try discriminate. cbn [bind] in *. now apply (IH (fst st, a)).
Qed.
Lemma d_don p : forall (st : L * L) l', exec step (fst st) p = Ok l' -> X st (map DDon p) = Ok (l', snd st).
Proof.
  induction p as [|s p IH]; intros st l' E; cbn [map d_exec exec d_step] in *.
  - injection E as <-. now destruct st.
  - destruct (step (fst st) s) as [a| |]; try discriminate. cbn [bind] in *. now apply (IH (a, snd st)).
Qed.

(** A prefix of a number of rounds is some rounds and a prefix of the next one. *)
Variables (round : L * L -> res (list (dstore V))) (move : L * L -> res (L * L)) (c : nat) (Inv : nat -> L * L -> Prop).
Hypothesis Hc : 0 < c.
Hypothesis HR : forall n st, Inv (S n) st -> exists p st', round st = Ok p /\ length p = c /\ X st p = Ok st' /\ move st = Ok st' /\ Inv n st'.
Lemma rounds_prefix : forall n i st, Inv n st -> exists p, rounds step round n st = Ok p /\ length p = c * n /\
  (exists st', X st p = Ok st' /\ for_up i n (fun _ => move) st = Ok st' /\ Inv 0 st') /\
  forall a b, b < c -> a < n -> exists st1 p1, Inv (n - a) st1 /\ round st1 = Ok p1 /\ X st (firstn (c * a + b) p) = X st1 (firstn b p1).
Proof.
  induction n as [|n IH]; intros i st I; cbn [rounds for_up].
  - exists []. splits; auto; try (cbn [length]; lia). exists st. auto.
  - destruct (HR I) as (p & st' & E & Lp & EX & EM & I'). rewrite E. cbn [bind]. rewrite EX. cbn [bind].
    destruct (IH (S i) st' I') as (r & Er & Lr & (st2 & E2 & F2 & I2) & HQ). rewrite Er. cbn [bind]. exists (p ++ r). splits; auto.
    + rewrite app_length. lia.
    + exists st2. rewrite d_exec_app, EX, EM. cbn [bind]. auto.
    + intros a b Hb Ha. destruct a as [|a].
      * exists st, p. splits; auto. rewrite Nat.mul_0_r. cbn [Nat.add]. rewrite firstn_app, Lp. replace (b - c) with 0 by lia. now rewrite app_nil_r.
      * destruct (HQ a b Hb) as (st1 & p1 & I1 & E1 & Q1); [lia|]. exists st1, p1. splits; auto.
        rewrite firstn_app, d_exec_app, firstn_all2 by lia. rewrite EX. cbn [bind]. rewrite <- Q1. do 2 f_equal. lia.
Qed.
End Exec.

(** * UnsortedPBPTree *)
Lemma find_ext_lt better (a : arr Z) n p : 0 < n -> find_ext better a n = Ok p -> p < n.
Proof.
  intros Hn. unfold find_ext. destruct (aget a 0) as [k0| |]; try discriminate. cbn [bind].
  assert (G : forall m i (x y : Z * nat), (snd x < n) -> i + m <= n -> for_up i m (fun i r => do k <- aget a i; if better k (fst r) then Ok (k, i) else Ok r) x = Ok y -> snd y < n).
  { induction m as [|m IH]; intros i x y Hx Hi; cbn [for_up]; [intros [= <-]; auto|]. destruct (aget a i) as [k| |]; try discriminate. cbn [bind].
    destruct (better k (fst x)); cbn [bind]; apply IH; cbn [snd]; auto; lia. }
  destruct (for_up 1 (n - 1) _ (k0, 0)) as [y| |] eqn:E; try discriminate. cbn [bind]. intros [= <-]. eapply G; [| |exact E]; cbn [snd]; lia.
Qed.
Lemma find_ext_some better (a : arr Z) n : 0 < n -> (forall i, i < n -> exists k, aget a i = Ok k) -> exists p, find_ext better a n = Ok p.
Proof.
  intros Hn H. unfold find_ext. destruct (H 0 Hn) as (k0 & ->). cbn [bind].
  assert (G : forall m i (x : Z * nat), i + m <= n -> exists y, for_up i m (fun i r => do k <- aget a i; if better k (fst r) then Ok (k, i) else Ok r) x = Ok y).
  { induction m as [|m IH]; intros i x Hi; cbn [for_up]; [eauto|]. destruct (H i) as (k & ->); [lia|]. cbn [bind]. destruct (better k (fst x)); cbn [bind]; apply IH; lia. }
  destruct (G (n - 1) 1 (k0, 0)) as (y & ->); [lia|]. cbn [bind]. eauto.
Qed.

Section Unsorted.
Variables (V : Type) (M : nat).
Notation SS := (@s_slots V).
Notation W := (@c_wf V M).
Notation LI := (listed SS).
Notation ON := (once SS).
Implicit Types (d r l : sleaf V).

(** The donor without its last slot, while slot [p] is being overwritten. *)
Lemma hole d p ks vs kp vp kl vl (bk bv : bool) : W d -> SS d p = Some (kp, vp) -> SS d (sn d - 1) = Some (kl, vl) ->
  (if bk then aset (sk d) p kl = Ok ks else ks = sk d) -> (if bv then aset (sv d) p vl = Ok vs else vs = sv d) ->
  W (SLeaf (sn d - 1) ks vs) /\ forall x, SS (SLeaf (sn d - 1) ks vs) x =
    if x <? sn d - 1 then if x =? p then Some (if bk then kl else kp, if bv then vl else vp) else SS d x else None.
Proof.
  intros (LN & LK & LV & HF & U) Hp Hl Hk Hv. destruct (s_slots_live Hp) as (Lp & Kp & Vp). destruct (s_slots_live Hl) as (_ & Kl & Vl).
  assert (GK : forall x, aget ks x = if (x =? p) && bk then Ok kl else aget (sk d) x).
  { intros x. destruct bk; [rewrite (aget_aset x Hk), andb_true_r|subst ks; rewrite andb_false_r]; reflexivity. }
  assert (GV : forall x, aget vs x = if (x =? p) && bv then Ok vl else aget (sv d) x).
  { intros x. destruct bv; [rewrite (aget_aset x Hv), andb_true_r|subst vs; rewrite andb_false_r]; reflexivity. }
  assert (SD : forall x, SS (SLeaf (sn d - 1) ks vs) x =
    if x <? sn d - 1 then if x =? p then Some (if bk then kl else kp, if bv then vl else vp) else SS d x else None).
  { intros x. unfold s_slots. cbn [sn sk sv]. destruct (Nat.ltb_spec x (sn d - 1)); [|reflexivity]. destruct (Nat.ltb_spec x (sn d)); [|lia].
    rewrite GK, GV. destruct (Nat.eqb_spec x p) as [->|]; cbn [andb]; [|reflexivity]. destruct bk, bv; rewrite ?Kp, ?Vp; reflexivity. }
  split; [|exact SD]. unfold c_wf. cbn [sn sk sv]. splits; [lia| | | |].
  - destruct bk; [now rewrite (aset_length Hk)|now subst].
  - destruct bv; [now rewrite (aset_length Hv)|now subst].
  - intros i Hi. destruct (HF i) as (k & v & Ek & Ev); [lia|]. rewrite GK, GV, Ek, Ev. destruct ((i =? p) && bk), ((i =? p) && bv); eauto.
  - intros i j k v w Hi Hj. rewrite SD in Hi, Hj. destruct (Nat.ltb_spec i (sn d - 1)) as [Li|]; [|discriminate]. destruct (Nat.ltb_spec j (sn d - 1)) as [Lj|]; [|discriminate].
    destruct (Nat.eqb_spec i p) as [->|], (Nat.eqb_spec j p) as [->|]; auto.
    + destruct bk; injection Hi as <- <-; [assert (j = sn d - 1) by (eapply U; eauto); lia|symmetry; eapply U; eauto].
    + destruct bk; injection Hj as <- <-; [assert (i = sn d - 1) by (eapply U; eauto); lia|eapply U; eauto].
    + eapply U; eauto.
Qed.

(** One round. *)
Lemma u_round_prefix better d r : W d -> W r -> ON (d, r) -> 0 < sn d -> sn r < M ->
  exists p st6, u_round (find_ext better) (d, r) = Ok p /\ length p = 6 /\ d_exec (@s_step V) (d, r) p = Ok st6 /\ ul_move (find_ext better) (d, r) = Ok st6 /\
    sn (fst st6) = sn d - 1 /\ sn (snd st6) = S (sn r) /\
    forall b, b <= 6 -> exists st, d_exec (@s_step V) (d, r) (firstn b p) = Ok st /\ W (fst st) /\ W (snd st) /\ (b = 6 -> st = st6) /\
      (exists x, forall k v, k <> x -> (LI st k v <-> LI (d, r) k v)) /\
      (b <> 4 -> b <> 5 -> forall k v, LI st k v <-> LI (d, r) k v) /\
      (b <= 2 \/ b = 6 -> ON st) /\ (b = 3 -> ~ ON st).
Proof.
  intros Wd Wr HO Hd Hr. pose proof Wd as (LN & LK & LV & HF & U).
  destruct (@find_ext_some better (sk d) (sn d) Hd) as (p & Ep); [intros i Hi; destruct (HF i Hi) as (k & v & ? & _); eauto|].
  pose proof (find_ext_lt Hd Ep) as Hp. destruct (HF p Hp) as (kp & vp & Kp & Vp). destruct (HF (sn d - 1)) as (kl & vl & Kl & Vl); [lia|].
  pose proof (s_slots_at Hp Kp Vp) as Sp. assert (Sl : SS d (sn d - 1) = Some (kl, vl)) by (apply s_slots_at; auto; lia).
  assert (A : absent (SS r) kp) by (intros w Hw; eapply HO; [exists p; exact Sp|exact Hw]).
  pose proof (fun n => @u_prefix V M r kp vp n Wr Hr A) as RP.
  destruct (RP 3) as (r3 & E3 & W3 & [[? _]|[_ S3]]); [lia|]. destruct (RP 1) as (r1 & E1 & W1 & [[_ S1]|[? _]]); [|lia]. destruct (RP 2) as (r2 & E2 & W2 & [[_ S2]|[? _]]); [|lia].
  assert (N3 : sn r3 = S (sn r)).
  { cbn [ul_stores firstn exec s_step] in E3. destruct (aset (sk r) (sn r) kp); try discriminate. cbn [bind sn sk sv] in E3. destruct (aset (sv r) (sn r) vp); try discriminate. injection E3 as <-. reflexivity. }
  destruct (@aset_ok _ (sk d) p kl) as (ks & EK); [lia|]. destruct (@aset_ok _ (sv d) p vl) as (vs & EV); [lia|].
  destruct (@hole d p (sk d) (sv d) kp vp kl vl false false Wd Sp Sl eq_refl eq_refl) as (WD1 & SD1).
  destruct (@hole d p ks (sv d) kp vp kl vl true false Wd Sp Sl EK eq_refl) as (WD2 & SD2).
  destruct (@hole d p ks vs kp vp kl vl true true Wd Sp Sl EK EV) as (WD3 & SD3). cbn [ifb] in *.
  set (D1 := SLeaf (sn d - 1) (sk d) (sv d)) in *. set (D2 := SLeaf (sn d - 1) ks (sv d)) in *. set (D3 := SLeaf (sn d - 1) ks vs) in *.
  set (RS := ul_stores r kp vp). assert (ER : exec (@s_step V) r RS = Ok r3) by exact E3.
  set (q := map DRec RS ++ map DDon [SNum (sn d - 1); CopyKey p (sn d - 1); CopyVal p (sn d - 1)]).
  assert (ED : forall b, b < 3 -> d_exec (@s_step V) (d, r3) (map DDon (firstn (S b) [SNum (sn d - 1); CopyKey p (sn d - 1); CopyVal p (sn d - 1)])) = Ok (match b with 0 => D1 | 1 => D2 | _ => D3 end, r3)).
  { intros b Hb. apply (@d_don V (sleaf V) (@s_step V) _ (d, r3)). cbn [fst]. destruct b as [|[|[|]]]; try lia; cbn [firstn exec s_step bind sn sk sv]; [reflexivity| |]; rewrite Kl; cbn [bind]; rewrite EK; cbn [bind sn sk sv]; [reflexivity|]; rewrite Vl; cbn [bind]; rewrite EV; reflexivity. }
  exists q, (D3, r3). splits.
  - unfold u_round. rewrite Ep. cbn [bind]. rewrite Kp, Vp. cbn [bind]. destruct (Nat.eqb_spec (sn d) 0); [lia|]. reflexivity.
  - reflexivity.
  - unfold q. rewrite d_exec_app, (@d_rec V (sleaf V) (@s_step V) RS (d, r) r3 ER). cbn [bind fst]. exact (ED 2 ltac:(lia)).
  - unfold ul_move. rewrite Ep. cbn [bind]. rewrite Kp, Vp. cbn [bind]. rewrite <- u_stores_append. fold RS. rewrite ER. cbn [bind]. destruct (Nat.eqb_spec (sn d) 0); [lia|].
    rewrite Kl, Vl. cbn [bind]. rewrite EK, EV. reflexivity.
  - reflexivity.
  - exact N3.
  - assert (P3 : forall k v, has (SS r3) k v <-> has (SS r) k v \/ (k = kp /\ v = vp)).
    { intros k v. apply (@plus_upd V (SS r) (SS r3) (sn r) kp vp); auto. apply s_slots_out. lia. }
    (* donors, key by key *)
    assert (OTH : forall D o, (forall x, SS D x = if x <? sn d - 1 then if x =? p then Some o else SS d x else None) -> (o = (kl, vl) \/ fst o = kl \/ o = (kp, vp)) ->
      forall k v, k <> kl -> k <> kp -> (has (SS D) k v <-> has (SS d) k v)).
    { intros D o SD Ho k v N1 N2. split; intros (x & Hx).
      - rewrite SD in Hx. destruct (x <? sn d - 1); [|discriminate]. destruct (x =? p); [|exists x; exact Hx]. injection Hx as ->. cbn [fst] in Ho. destruct Ho as [[= ? ?]|[?|[= ? ?]]]; congruence.
      - exists x. rewrite SD. destruct (s_slots_live Hx) as (Lx & _). destruct (Nat.ltb_spec x (sn d - 1)).
        + destruct (Nat.eqb_spec x p) as [->|]; auto. rewrite Sp in Hx. congruence.
        + assert (x = sn d - 1) by lia. subst x. rewrite Sl in Hx. congruence. }
    assert (FIN : forall k v, LI (D3, r3) k v <-> LI (d, r) k v).
    { intros k v. unfold listed. cbn [fst snd]. rewrite P3. split.
      - intros [(x & Hx)|[H|[-> ->]]]; [|auto|left; exists p; exact Sp]. left. rewrite SD3 in Hx. destruct (x <? sn d - 1); [|discriminate]. destruct (x =? p); [injection Hx as <- <-; exists (sn d - 1); exact Sl|exists x; exact Hx].
      - intros [(x & Hx)|H]; [|auto]. destruct (Nat.eq_dec x p) as [->|NE]; [rewrite Sp in Hx; injection Hx as <- <-; auto|].
        destruct (s_slots_live Hx) as (Lx & _). destruct (Nat.eq_dec x (sn d - 1)) as [->|].
        + rewrite Sl in Hx. injection Hx as <- <-. left. exists p. rewrite SD3. destruct (Nat.ltb_spec p (sn d - 1)); [|lia]. now rewrite Nat.eqb_refl.
        + left. exists x. rewrite SD3. destruct (Nat.ltb_spec x (sn d - 1)); [|lia]. destruct (Nat.eqb_spec x p); [contradiction|]. exact Hx. }
    assert (FON : ON (D3, r3)).
    { intros k v w (x & Hx) H. cbn [fst snd] in *. rewrite SD3 in Hx. destruct (Nat.ltb_spec x (sn d - 1)) as [Lx|]; [|discriminate]. apply P3 in H.
      assert (Y : exists y v', SS d y = Some (k, v') /\ y <> p).
      { destruct (Nat.eqb_spec x p) as [EQ|NE]; [|exists x, v; auto]. injection Hx as <- <-. exists (sn d - 1), vl. split; auto. lia. }
      destruct Y as (y & v' & Hy & NE). destruct H as [H|[-> ->]].
      - eapply HO; [exists y; exact Hy|exact H].
      - apply NE. eapply U; eauto. }
    assert (KEY : forall D o, (forall x, SS D x = if x <? sn d - 1 then if x =? p then Some o else SS d x else None) -> (o = (kl, vp) \/ o = (kp, vp)) ->
      forall k v, k <> kl -> (LI (D, r3) k v <-> LI (d, r) k v)).
    { intros D o SD Ho k v NK. unfold listed. cbn [fst snd]. rewrite P3. destruct (Z.eq_dec k kp) as [->|NP].
      - split.
        + intros [(x & Hx)|[H|[_ ->]]]; [|auto|left; exists p; exact Sp]. left. rewrite SD in Hx. destruct (x <? sn d - 1); [|discriminate]. destruct (x =? p); [|exists x; exact Hx].
          destruct Ho; subst o; [congruence|]. injection Hx as <-. exists p. exact Sp.
        + intros [(x & Hx)|H]; [|auto]. assert (x = p) by (eapply U; eauto). subst x. rewrite Sp in Hx. injection Hx as <-. auto.
      - rewrite (OTH D o SD) by (auto; destruct Ho; subst o; auto). intuition congruence. }
    assert (R0 : forall l, eqs (SS r) (SS l) -> (forall k v, LI (d, l) k v <-> LI (d, r) k v) /\ ON (d, l)).
    { intros l H. split.
      - intros k v. unfold listed. cbn [fst snd]. pose proof (same_eqs H k v). tauto.
      - intros k v w H1 H2. apply (same_eqs H) in H2. eapply HO; eauto. }
    intros b Hb. destruct b as [|[|[|b]]].
    + exists (d, r). splits; auto; try lia; try (exists kl; tauto); try tauto.
    + exists (d, r1). destruct (R0 r1 S1) as (L1 & O1). split; [exact (@d_rec V (sleaf V) (@s_step V) (firstn 1 RS) (d, r) r1 E1)|]. splits; auto; try lia. exists kl. auto.
    + exists (d, r2). destruct (R0 r2 S2) as (L2 & O2). split; [exact (@d_rec V (sleaf V) (@s_step V) (firstn 2 RS) (d, r) r2 E2)|]. splits; auto; try lia. exists kl. auto.
    + assert (EQ : d_exec (@s_step V) (d, r) (firstn (S (S (S b))) q) = d_exec (@s_step V) (d, r3) (map DDon (firstn b [SNum (sn d - 1); CopyKey p (sn d - 1); CopyVal p (sn d - 1)]))).
      { unfold q. rewrite firstn_app, d_exec_app, firstn_all2 by (cbn; lia). rewrite (@d_rec V (sleaf V) (@s_step V) RS (d, r) r3 ER). cbn [bind fst]. rewrite firstn_map. do 2 f_equal. cbn. now rewrite Nat.sub_0_r. }
      rewrite EQ. destruct b as [|b].
      * exists (d, r3). assert (LL : forall k v, LI (d, r3) k v <-> LI (d, r) k v).
        { intros k v. unfold listed. cbn [fst snd]. rewrite P3. intuition. subst. left. exists p. exact Sp. }
        splits; auto; try lia; [exists kl; auto|]. intros _ H. apply (H kp vp vp); [exists p; exact Sp|]. apply P3. auto.
      * rewrite ED by lia. eexists. split; [reflexivity|]. cbn [fst snd]. destruct b as [|[|[|]]]; try lia; splits; auto; try lia.
        -- exists kl. apply (KEY D1 (kp, vp)); auto.
        -- exists kl. apply (KEY D2 (kl, vp)); auto.
        -- exists kl. auto.
Qed.

Lemma u_wf_agrees l : W l -> u_agrees l.
Proof.
  intros Wl. pose proof Wl as (LN & LK & LV & HF & U). exists (collect (SS l) (sn l) 0). splits.
  - unfold sl_scan. assert (G : forall n i, i + n = sn l -> sl_scan_from n i l = Ok (collect (SS l) n i)).
    { induction n as [|n IH]; intros i Hi; cbn [sl_scan_from collect]; [reflexivity|]. destruct (HF i) as (k & v & Ek & Ev); [lia|].
      rewrite (@s_slots_at V l i k v) by (auto; lia). rewrite Ek, Ev. cbn [bind]. rewrite IH by lia. reflexivity. }
    now apply G.
  - apply reports_collect; auto. intros i Hi. now apply s_slots_out.
  - intros k. exact (u_lookup_ok k Wl).
Qed.

Definition u_inv d0 r0 (n : nat) (st : sleaf V * sleaf V) : Prop :=
  W (fst st) /\ W (snd st) /\ ON st /\ (forall k v, LI st k v <-> LI (d0, r0) k v) /\ n <= sn (fst st) /\ sn (snd st) + n <= M.

Lemma u_balance_crash d r out : W d -> W r -> ON (d, r) -> ul_balance d r = Ok out ->
  exists p, ul_balance_stores d r = Ok p /\ length p = 6 * (sn d - (sn d + sn r) / 2) /\ forall q, exists st,
    d_exec (@s_step V) (d, r) (firstn q p) = Ok st /\ u_agrees (fst st) /\ u_agrees (snd st) /\
    (exists x, forall k v, k <> x -> (LI st k v <-> LI (d, r) k v)) /\
    (q mod 6 <= 3 \/ length p <= q -> forall k v, LI st k v <-> LI (d, r) k v) /\
    (q mod 6 <= 2 \/ length p <= q -> ON st) /\ (q < length p -> q mod 6 = 3 -> ~ ON st) /\
    (length p <= q -> st = out).
Proof.
  intros Wd Wr HO E. unfold ul_balance in E. unfold ul_balance_stores. destruct (Nat.ltb_spec (sn d) ((sn d + sn r) / 2)); [discriminate|].
  destruct (Nat.eqb_spec (sn d - (sn d + sn r) / 2) 0) as [Z0|NZ].
  { injection E as <-. exists []. rewrite Z0. splits; auto. intros q. exists (d, r). rewrite firstn_nil. cbn [d_exec length]. splits; auto; try lia; try apply u_wf_agrees; auto; try tauto. exists 0%Z. tauto. }
  destruct (aget (sk d) 0) as [d0| |]; try discriminate. cbn [bind] in *. destruct (aget (sk r) 0) as [r0| |]; try discriminate. cbn [bind] in *.
  set (tm := sn d - (sn d + sn r) / 2) in *.
  assert (B : exists better, (if (d0 <? r0)%Z then findMaxKeyPos else findMinKeyPos) = find_ext better) by (destruct (d0 <? r0)%Z; eexists; reflexivity).
  destruct B as (better & B). rewrite B in *.
  destruct (@rounds_prefix V (sleaf V) (@s_step V) (u_round (find_ext better)) (ul_move (find_ext better)) 6 (u_inv d r)) with (n := tm) (i := 0) (st := (d, r)) as (p & Ep & Lp & (st' & Ex & Ef & I0) & HQ); [lia| | |].
  { intros n [a b] (Wa & Wb & Oab & Lab & Ha & Hb). cbn [fst snd] in *. destruct (@u_round_prefix better a b) as (p & st6 & Er & Lp & Ex & Em & N1 & N2 & HB); auto; try lia.
    exists p, st6. splits; auto. destruct (HB 6) as (st & E6 & W1 & W2 & Est & _ & LL & OO & _); [lia|]. specialize (Est eq_refl). subst st. unfold u_inv. rewrite N1, N2. splits; auto; try lia.
    intros k v. rewrite LL by lia. apply Lab. }
  { pose proof (proj1 Wd). pose proof (proj1 Wr). unfold u_inv. cbn [fst snd]. splits; auto; try tauto; unfold tm; lia. }
  exists p. splits; auto. intros q. destruct (Nat.lt_ge_cases q (length p)) as [Hq|Hq].
  - destruct (HQ (q / 6) (q mod 6)) as ([a b] & p1 & I1 & E1 & Q1); [lia|lia|]. replace (6 * (q / 6) + q mod 6) with q in Q1 by lia. rewrite Q1.
    destruct I1 as (Wa & Wb & Oab & Lab & Ha & Hb). cbn [fst snd] in *. destruct (@u_round_prefix better a b) as (p2 & st6 & Er & Lp2 & _ & _ & _ & _ & HB); auto; try lia.
    rewrite Er in E1. injection E1 as ->. destruct (HB (q mod 6)) as (st & Es & W1 & W2 & _ & (x & LX) & LL & OO & NO); [lia|]. exists st. splits; auto; try apply u_wf_agrees; auto; try lia.
    + exists x. intros k v Hk. rewrite LX by auto. apply Lab.
    + intros C k v. rewrite LL by lia. apply Lab.
    + intros C. apply OO. lia.
  - rewrite firstn_all2 by lia. exists st'. destruct I0 as (Wa & Wb & Oab & Lab & _). splits; auto; try apply u_wf_agrees; auto; try lia; [exists 0%Z; auto|]. congruence.
Qed.
End Unsorted.

(** * Bitmap leaves *)
Lemma cnt_off (f g : nat -> bool) p : (forall i, g i = if i =? p then false else f i) -> f p = true -> forall n lo,
  cnt g lo n = if (lo <=? p) && (p <? lo + n) then cnt f lo n - 1 else cnt f lo n.
Proof.
  intros H Hp. induction n as [|n IH]; intros lo; unfold cnt in *; cbn [seq filter].
  - destruct ((lo <=? p) && (p <? lo + 0)); reflexivity.
  - rewrite H. specialize (IH (S lo)). destruct (Nat.eqb_spec lo p) as [->|NE].
    + rewrite Hp. cbn [length]. rewrite IH. destruct (Nat.leb_spec (S p) p); [lia|]. cbn [andb]. destruct (Nat.leb_spec p p), (Nat.ltb_spec p (p + S n)); cbn [andb]; lia.
    + assert (G : (S lo <=? p) && (p <? S lo + n) = ((lo <=? p) && (p <? lo + S n))).
      { destruct (Nat.leb_spec (S lo) p), (Nat.leb_spec lo p), (Nat.ltb_spec p (S lo + n)), (Nat.ltb_spec p (lo + S n)); cbn [andb]; auto; lia. }
      rewrite G in IH. destruct ((lo <=? p) && (p <? lo + S n)) eqn:GG; destruct (f lo); cbn [length]; rewrite ?IH; auto.
      assert (In p (filter f (seq (S lo) n))).
      { apply filter_In. split; auto. apply in_seq. apply andb_prop in GG as (A & B). apply Nat.leb_le in A. apply Nat.ltb_lt in B. lia. }
      destruct (filter f (seq (S lo) n)); [contradiction|]. cbn [length]. lia.
Qed.
Lemma cnt_max (f : nat -> bool) : forall n lo, cnt f lo n <= n.
Proof. induction n as [|n IH]; intros lo; unfold cnt in *; cbn [seq filter length]; [lia|]. specialize (IH (S lo)). destruct (f lo); cbn [length]; lia. Qed.
Lemma cnt_two (f : nat -> bool) lo n : 2 <= cnt f lo n -> exists i j, lo <= i < lo + n /\ lo <= j < lo + n /\ i <> j /\ f i = true /\ f j = true.
Proof.
  unfold cnt. intros H. destruct (filter f (seq lo n)) as [|i [|j r]] eqn:E; cbn [length] in H; try lia. exists i, j.
  assert (Hi : In i (filter f (seq lo n))) by (rewrite E; simpl; auto). assert (Hj : In j (filter f (seq lo n))) by (rewrite E; simpl; auto).
  apply filter_In in Hi as (Hi & Fi). apply filter_In in Hj as (Hj & Fj). apply in_seq in Hi, Hj. splits; auto; try lia.
  pose proof (NoDup_filter f (seq_NoDup n lo)) as ND. rewrite E in ND. inversion ND as [|? ? NI _]. intros ->. apply NI. simpl. auto.
Qed.
Lemma cnt_less (f : nat -> bool) lo n : cnt f lo n < n -> exists i, lo <= i < lo + n /\ f i = false.
Proof.
  revert lo. induction n as [|n IH]; intros lo; unfold cnt in *; cbn [seq filter length]; [lia|]. destruct (f lo) eqn:F; cbn [length].
  - intros H. destruct (IH (S lo)) as (i & Hi & Fi); [lia|]. exists i. split; auto. lia.
  - intros _. exists lo. split; auto. lia.
Qed.

Section Fp.
Variables (V : Type) (t : ktype) (fpt : bool) (fp : Z -> Z) (junk : nat -> Z) (M : nat).
Hypothesis Hfp : fpt = false -> forall k, fp k = 0%Z.
Notation FS := (@f_slots V M).
Notation F := (@f_fine V fpt fp M).
Notation LI := (listed FS).
Notation ON := (once FS).
Notation CNT l := (cnt (bit (fb l)) 0 M).
Implicit Types (d r l : fleaf V).

Lemma ext_live l (better : Z -> Z -> bool) lim : F l -> order better -> 2 <= CNT l -> (forall k v, has (FS l) k v -> k = lim \/ better k lim = true) ->
  exists p k v, (do bs <- bm_list M M (fb l) 0; find_ext_bits better lim (fk l) bs M) = Ok p /\ FS l p = Some (k, v).
Proof.
  intros ((HL & HF & U) & _) HO HC HB. pose proof HL as (HBm & LF & LK & LV). destruct (@bm_list_ok M (fb l) HBm M 0) as (bs & -> & Lb & Hb); auto. cbn [bind].
  assert (LV2 : forall i k, live (fk l) bs i k -> exists v, FS l i = Some (k, v)).
  { intros i k [E1 E2]. pose proof (nth_error_Some_lt E1) as Hi. rewrite Hb in E1 by lia. cbn [Nat.add] in E1. injection E1 as E1. destruct (HF i E1) as (k' & v & Ek & Ev).
    exists v. rewrite (f_slots_bit fp junk i HL), E1, Ek, Ev. apply aget_nth in Ek. rewrite E2 in Ek. injection Ek as ->. reflexivity. }
  assert (LV1 : forall i, i < M -> bit (fb l) i = true -> exists k, live (fk l) bs i k).
  { intros i Hi Bi. destruct (HF i Bi) as (k & v & Ek & _). exists k. split; [rewrite Hb by lia; cbn [Nat.add]; now rewrite Bi|now apply aget_nth]. }
  destruct (cnt_two HC) as (i & j & Hi & Hj & NE & Bi & Bj). destruct (LV1 i) as (ki & Li); [lia|auto|]. destruct (LV1 j) as (kj & Lj); [lia|auto|].
  destruct (@find_ext_bits_ok better lim (fk l) bs M HO) as (p & E & C).
  - unfold bits_ok. splits; auto. intros x Ex. pose proof (nth_error_Some_lt Ex) as Hx. rewrite Hb in Ex by lia. cbn [Nat.add] in Ex. injection Ex as Ex.
    destruct (HF x Ex) as (k' & v & Ek & _). apply aget_nth in Ek. eauto.
  - eauto.
  - intros x k Lx. destruct (LV2 x k Lx) as (v & Ev). apply (HB k v). exists x. exact Ev.
  - exists p. destruct C as [(m & Lm & _)|[_ H0]].
    + destruct (LV2 p m Lm) as (v & Ev). exists m, v. auto.
    + exfalso. apply NE. pose proof (H0 i ki Li). pose proof (H0 j kj Lj). subst ki kj. destruct (LV2 i lim Li) as (vi & Ei). destruct (LV2 j lim Lj) as (vj & Ej). eapply U; eauto.
Qed.

Lemma f_round_prefix better lim d r (find := fun l => do bs <- bm_list M M (fb l) 0; find_ext_bits better lim (fk l) bs M) :
  F d -> F r -> blank fpt d -> blank fpt r -> ON (d, r) -> order better -> 2 <= CNT d -> CNT r < M ->
  (forall k v, has (FS d) k v -> k = lim \/ better k lim = true) ->
  exists p st', f_round fp fpt find (d, r) = Ok p /\ length p = S (plen fpt) /\ d_exec (@f_step V M) (d, r) p = Ok st' /\ fl_move fp M find (d, r) = Ok st' /\
    F (fst st') /\ F (snd st') /\ blank fpt (fst st') /\ blank fpt (snd st') /\ CNT (fst st') = CNT d - 1 /\ CNT (snd st') = S (CNT r) /\ ON st' /\
    (forall k v, LI st' k v <-> LI (d, r) k v) /\ (forall k v, has (FS (fst st')) k v -> has (FS d) k v) /\
    forall b, b <= plen fpt -> exists st, d_exec (@f_step V M) (d, r) (firstn b p) = Ok st /\ fst st = d /\ (b = 0 -> st = (d, r)) /\
      (forall k v, LI (d, r) k v -> LI st k v) /\
      (fpt = false \/ b = 0 \/ b = plen fpt -> F (snd st) /\ forall k v, LI st k v -> LI (d, r) k v) /\
      (fpt = false -> b < plen fpt -> ON st) /\ (b = plen fpt -> ~ ON st).
Proof.
  intros Fd Fr Zd Zr HO HB HC HM HK. destruct (@ext_live d better lim Fd HB HC HK) as (m & k & v & Em & Sm).
  pose proof Fd as ((HLd & HFd & Ud) & _). pose proof Fr as ((HLr & HFr & Ur) & _). pose proof HLr as (HBr & LFr & _).
  destruct (f_slots_live fp junk HLd Sm) as (Hm & Bm & Km & Vm).
  destruct (getFreeZero_ok HBr) as (u & Eu & Hu & Hall & Hfree).
  assert (Lu : u < M). { destruct (Nat.lt_ge_cases u M); auto. destruct (cnt_less HM) as (i & Hi & Fi). rewrite Hall in Fi by lia. discriminate. }
  specialize (Hfree Lu). assert (Su : FS r u = None) by (rewrite (f_slots_bit fp junk u HLr), Hfree; reflexivity).
  assert (A : absent (FS r) k) by (intros w Hw; eapply HO; [exists m; exact Sm|exact Hw]).
  pose proof (fun q => @put_prefix V fpt fp junk M r u k v (fp k) q Fr Lu Hfree A (fun _ => eq_refl)) as STEP.
  destruct (STEP (plen fpt)) as (r' & E1 & _ & _ & _ & G1). destruct (G1 (le_n _)) as (Fr' & S1 & EB1 & f & Ef & EP1 & Eff).
  rewrite firstn_all2 in E1 by (rewrite put_length; lia).
  assert (EP : fl_put M r u k v (fp k) = Ok r').
  { rewrite EP1. f_equal. destruct r' as [b1 f1 k1 v1]. cbn [fb ff fk fv] in *. f_equal. rewrite Eff. destruct fpt eqn:T; auto.
    apply (lset_same Ef). assert (X : exists h0, nth_error (ff r) u = Some h0) by (destruct (nth_error (ff r) u) eqn:N; eauto; apply nth_error_None in N; lia).
    destruct X as (h0 & X). rewrite X. f_equal. rewrite (Zr eq_refl u h0) by (unfold lget; now rewrite X). symmetry. auto. }
  destruct (@f_clrbit V fpt fp junk M d m k v Fd Sm) as (d' & Ed & Fd' & Sd & Ekd & Evd & Efd).
  assert (Bd : forall i, bit (fb d') i = if i =? m then false else bit (fb d) i).
  { cbn [f_step] in Ed. destruct HLd as (HBd & _). destruct (bm_reset_ok HBd Hm) as (b & Eb & _ & Hb). rewrite Eb in Ed. cbn [bind] in Ed. injection Ed as <-. exact Hb. }
  assert (Br : forall i, bit (fb r') i = if i =? u then true else bit (fb r) i).
  { destruct (bm_set_ok true HBr Lu) as (b & Eb & _ & Hb). rewrite Eb in EB1. injection EB1 as <-. exact Hb. }
  assert (HU : forall k' v', has (FS r') k' v' <-> has (FS r) k' v' \/ (k' = k /\ v' = v)) by (apply (upd_has (u := u)); auto).
  assert (HD : forall k' v', has (FS d') k' v' -> has (FS d) k' v' /\ k' <> k).
  { intros k' v' (x & Hx). rewrite Sd in Hx. unfold upd in Hx. destruct (Nat.eqb_spec x m); [discriminate|]. split; [exists x; exact Hx|]. intros ->. apply n. eapply Ud; eauto. }
  assert (HD' : forall k' v', has (FS d) k' v' -> k' <> k -> has (FS d') k' v').
  { intros k' v' (x & Hx) NE. exists x. rewrite Sd. unfold upd. destruct (Nat.eqb_spec x m) as [->|]; auto. rewrite Sm in Hx. congruence. }
  set (PS := put_stores fpt u k v (fp k)) in *.
  exists (map DRec PS ++ [DDon (SClear m)]), (d', r'). cbn [fst snd]. splits; auto.
  - unfold f_round, find. rewrite Em. cbn [bind]. rewrite Eu. cbn [bind]. rewrite Km, Vm. reflexivity.
  - rewrite app_length, map_length. unfold PS. rewrite put_length. cbn [length]. lia.
  - rewrite d_exec_app, (@d_rec V (fleaf V) (@f_step V M) PS (d, r) r' E1). cbn [bind d_exec d_step fst snd]. rewrite Ed. reflexivity.
  - unfold fl_move, find. rewrite Em. cbn [bind]. rewrite Eu. cbn [bind]. rewrite Km, Vm. cbn [bind]. rewrite EP. cbn [bind]. change (fl_clear M d m) with (f_step M d (SClear m)). rewrite Ed. reflexivity.
  - intros T x h. rewrite Efd. now apply Zd.
  - intros T x h. rewrite Eff, T. now apply Zr.
  - rewrite (cnt_off Bd Bm M 0). destruct (Nat.leb_spec 0 m), (Nat.ltb_spec m (0 + M)); cbn [andb]; lia.
  - assert (X : forall i, bit (fb r) i = if i =? u then false else bit (fb r') i) by (intros i; rewrite Br; destruct (Nat.eqb_spec i u) as [->|]; auto).
    assert (Y : bit (fb r') u = true) by now rewrite Br, Nat.eqb_refl. rewrite (cnt_off X Y M 0).
    destruct (Nat.leb_spec 0 u), (Nat.ltb_spec u (0 + M)); cbn [andb]; try lia.
    assert (0 < CNT r'); [|lia]. unfold cnt. assert (I : In u (filter (bit (fb r')) (seq 0 M))) by (apply filter_In; split; [apply in_seq; lia|auto]).
    destruct (filter (bit (fb r')) (seq 0 M)); [contradiction|cbn [length]; lia].
  - intros k' v' w H1 H2. cbn [fst snd] in *. apply HD in H1 as (H1 & NE). apply HU in H2 as [H2|[-> _]]; [eapply HO; eauto|contradiction].
  - intros k' v'. unfold listed. cbn [fst snd]. rewrite HU. split.
    + intros [H|[H|[-> ->]]]; [left; now apply HD|auto|left; exists m; exact Sm].
    + intros [H|H]; [|auto]. destruct (Z.eq_dec k' k) as [->|NE]; [|auto]. destruct H as (x & Hx). assert (x = m) by (eapply Ud; eauto). subst x. rewrite Sm in Hx. injection Hx as <-. auto.
  - intros k' v' H. now apply HD.
  - intros b Hb. destruct (STEP b) as (rb & Eb & Ob & Zb & Db & Gb). exists (d, rb). cbn [fst snd].
    assert (KEEP : forall k' v', has (FS r) k' v' -> has (FS rb) k' v').
    { intros k' v' (x & Hx). exists x. rewrite Ob; auto. intros ->. congruence. }
    splits; auto.
    + rewrite firstn_app, map_length. unfold PS. rewrite put_length. replace (b - plen fpt) with 0 by lia. cbn [firstn]. rewrite app_nil_r, firstn_map. now apply (@d_rec V (fleaf V) (@f_step V M) _ (d, r)).
    + intros B0. now rewrite (Zb B0).
    + intros k' v' [H|H]; [left; auto|right; cbn [snd] in *; auto].
    + intros C. destruct (Nat.eq_dec b (plen fpt)) as [->|NE].
      * destruct (Gb (le_n _)) as (Fb & Sb & _). split; [exact Fb|]. intros k' v' [H|H]; [left; auto|]. cbn [snd fst] in *. apply (upd_has (u := u) Su Sb) in H as [H|[-> ->]]; [right; auto|left; exists m; exact Sm].
      * destruct C as [T|[->|?]]; [| |contradiction].
        -- destruct (Db ltac:(lia) T) as (Fb & Sb). split; [exact Fb|]. intros k' v' [H|H]; [left; auto|right; cbn [snd] in *; now apply (same_eqs Sb)].
        -- rewrite (Zb eq_refl). split; auto.
    + intros T Lb. destruct (Db Lb T) as (_ & Sb). intros k' v' w H1 H2. cbn [fst snd] in *. apply (same_eqs Sb) in H2. eapply HO; eauto.
    + intros -> H. destruct (Gb (le_n _)) as (_ & Sb & _). apply (H k v v); cbn [fst snd]; [exists m; exact Sm|]. apply (upd_has (u := u) Su Sb). auto.
Qed.

Definition f_inv better lim d0 r0 (base : nat) (n : nat) (st : fleaf V * fleaf V) : Prop :=
  F (fst st) /\ F (snd st) /\ blank fpt (fst st) /\ blank fpt (snd st) /\ ON st /\ (forall k v, LI st k v <-> LI (d0, r0) k v) /\
  CNT (fst st) = n + base /\ CNT (snd st) + n <= M /\ (forall k v, has (FS (fst st)) k v -> k = lim \/ better k lim = true : Prop).

Lemma f_balance_crash d r out : F d -> F r -> blank fpt d -> blank fpt r -> ON (d, r) -> (N.of_nat M < BitmapModel.W)%N -> 1 < fl_count d ->
  (forall k v, has (FS d) k v -> kt_in t k) -> fl_balance t fp M d r = Ok out ->
  exists p, fl_balance_stores t M fp fpt d r = Ok p /\ length p = S (plen fpt) * (fl_count d - (fl_count d + fl_count r) / 2) /\ forall q, exists st,
    d_exec (@f_step V M) (d, r) (firstn q p) = Ok st /\ F (fst st) /\
    (forall k v, LI (d, r) k v -> LI st k v) /\
    (fpt = false \/ q mod S (plen fpt) = 0 \/ q mod S (plen fpt) = plen fpt \/ length p <= q -> F (snd st) /\ forall k v, LI st k v -> LI (d, r) k v) /\
    (q mod S (plen fpt) = 0 \/ fpt = false /\ q mod S (plen fpt) < plen fpt \/ length p <= q -> ON st) /\
    (q < length p -> q mod S (plen fpt) = plen fpt -> ~ ON st) /\
    (length p <= q -> st = out).
Proof.
  intros Fd Fr Zd Zr HO HW HC HK E.
  assert (CD : fl_count d = CNT d) by (unfold fl_count; rewrite (bm_count_ok HW (proj1 (proj1 (proj1 Fd)))); apply Nnat.Nat2N.id).
  assert (CR : fl_count r = CNT r) by (unfold fl_count; rewrite (bm_count_ok HW (proj1 (proj1 (proj1 Fr)))); apply Nnat.Nat2N.id).
  assert (LE : forall l, CNT l <= M) by (intros l; apply cnt_max).
  pose proof (LE d) as Ld. pose proof (LE r) as Lr.
  unfold fl_balance in E. unfold fl_balance_stores. destruct (Nat.ltb_spec (fl_count d) ((fl_count d + fl_count r) / 2)); [discriminate|].
  destruct (Nat.eqb_spec (fl_count d - (fl_count d + fl_count r) / 2) 0) as [Z0|NZ].
  { injection E as <-. exists []. rewrite Z0. splits; auto. intros q. exists (d, r). rewrite firstn_nil. cbn [d_exec length fst snd]. splits; auto; lia. }
  destruct (aget (fk d) 0) as [d0| |]; try discriminate. cbn [bind] in *. destruct (aget (fk r) 0) as [r0| |]; try discriminate. cbn [bind] in *.
  set (base := (fl_count d + fl_count r) / 2) in *. set (tm := fl_count d - base) in *.
  assert (B : exists better lim, (if (d0 <? r0)%Z then fl_maxpos t M else fl_minpos t M) = (fun l => do bs <- bm_list M M (fb l) 0; find_ext_bits better lim (fk l) bs M) /\
    order better /\ forall k, kt_in t k -> k = lim \/ better k lim = true).
  { destruct (d0 <? r0)%Z; do 2 eexists; (split; [reflexivity|]); split; try apply order_gtb; try apply order_ltb; [apply kt_max_ext|apply kt_min_ext]. }
  destruct B as (better & lim & B & HB & HL). rewrite B in *. set (find := fun l : fleaf V => do bs <- bm_list M M (fb l) 0; find_ext_bits better lim (fk l) bs M) in *.
  assert (SIZE : 1 <= base /\ CNT r + tm <= M /\ CNT d = tm + base) by (unfold tm, base in *; lia).
  assert (STEP : forall n st, f_inv better lim d r base (S n) st -> exists p st', f_round fp fpt find st = Ok p /\ length p = S (plen fpt) /\ d_exec (@f_step V M) st p = Ok st' /\ fl_move fp M find st = Ok st' /\ f_inv better lim d r base n st').
  { intros n [a b] (Fa & Fb & Za & Zb & Oab & Lab & Ca & Cb & Kab). cbn [fst snd] in *.
    destruct (@f_round_prefix better lim a b) as (p & st' & Er & Lp & Ex & Em & F1 & F2 & Z1 & Z2 & C1 & C2 & O1 & L1 & K1 & _); auto; try lia.
    exists p, st'. splits; auto. unfold f_inv. rewrite C1, C2. splits; auto; try lia.
    - intros k v. rewrite L1. apply Lab. - intros k v Hx. eapply Kab. apply K1. exact Hx. }
  destruct (@rounds_prefix V (fleaf V) (@f_step V M) (f_round fp fpt find) (fl_move fp M find) (S (plen fpt)) (f_inv better lim d r base)) with (n := tm) (i := 0) (st := (d, r)) as (p & Ep & Lp & (st' & Ex & Ef & I0) & HQ); [lia|exact STEP| |].
  { unfold f_inv. cbn [fst snd]. splits; auto; try tauto; try lia. intros k v Hx. apply HL. eapply HK; eauto. }
  exists p. splits; auto. intros q. destruct (Nat.lt_ge_cases q (length p)) as [Hq|Hq].
  - assert (QE : q = S (plen fpt) * (q / S (plen fpt)) + q mod S (plen fpt)) by (apply Nat.div_mod; lia).
    assert (QB : q mod S (plen fpt) < S (plen fpt)) by (apply Nat.mod_upper_bound; lia).
    assert (QA : q / S (plen fpt) < tm) by (apply Nat.div_lt_upper_bound; lia).
    destruct (HQ (q / S (plen fpt)) (q mod S (plen fpt)) QB QA) as ([a b] & p1 & I1 & E1 & Q1). rewrite <- QE in Q1. rewrite Q1.
    destruct I1 as (Fa & Fb & Za & Zb & Oab & Lab & Ca & Cb & Kab). cbn [fst snd] in *.
    destruct (@f_round_prefix better lim a b) as (p2 & st2 & Er & Lp2 & _ & _ & _ & _ & _ & _ & _ & _ & _ & _ & _ & HH); auto; try lia.
    fold find in Er. rewrite Er in E1. injection E1 as ->. destruct (HH (q mod S (plen fpt))) as (st & Es & D1 & Z1 & UP & DN & OO & NO); [lia|]. exists st. splits; auto; try lia.
    + now rewrite D1.
    + intros k v Hx. apply UP. now apply Lab.
    + intros C. destruct DN as (FF & DN); [intuition lia|]. split; auto. intros k v Hx. apply Lab. now apply DN.
    + intros [C|[[T C]|C]]; [|now apply OO|lia]. now rewrite (Z1 C).
  - rewrite firstn_all2 by lia. exists st'. destruct I0 as (Fa & Fb & Za & Zb & Oab & Lab & _). splits; auto; try lia.
    + intros k v. apply Lab. + intros _. split; auto. apply Lab. + congruence.
Qed.
End Fp.
