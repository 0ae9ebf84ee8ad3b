(** Inserts into woPSkiplist: the stores of one insert, all of them or a prefix. *)
From Verif Require Import Base ArrLemmas MapSpec SortedList SearchModel RankModel BitmapModel BitmapProofs ULeafModel ULeafProofs
  SlotLemmas FLeafProofs SkipProofs WoModel WoNode WoProofs.
From Coq Require Import Permutation.
Open Scope nat_scope.

Section WoI.
Variables (V : Type) (t : ktype) (N M : nat).
Notation wlist := (wlist V).
Notation wnode := (wnode V).
Notation winv := (@winv V t N M).
Implicit Types (s : wlist) (ns : list wnode) (es e : list (Z * V)) (bl : list (list (Z * V))) (ids : list nat).

(** After an interrupted insert all searches answer as before, or all as after the insert. *)
Definition oldnew s s' (k : Z) (v : V) : Prop :=
  (forall x, kt_in t x -> w_search N s' x = w_search N s x) \/
  (forall x, kt_in t x -> w_search N s' x = if (x =? k)%Z then Ok (Some v) else w_search N s x).

Lemma oldnew_old s ids bl ch s' ids' bl' ch' k v : winv s ids bl ch -> winv s' ids' bl' ch' -> concat bl' = concat bl -> oldnew s s' k v.
Proof. intros I I' E. left. intros x _. now rewrite (w_search_ok I), (w_search_ok I'), E. Qed.
Lemma oldnew_new s ids bl ch s' ids' bl' ch' k v : winv s ids bl ch -> winv s' ids' bl' ch' -> concat bl' = ins k v (concat bl) -> oldnew s s' k v.
Proof.
  intros I I' E. right. intros x _. rewrite (w_search_ok I), (w_search_ok I'), E, get_ins by exact (w_srt I). now destruct (x =? k)%Z.
Qed.

Lemma nodup_mid {A} (a : A) l1 x l2 : NoDup (a :: l1 ++ x :: l2) -> a <> x /\ ~ In x l1 /\ ~ In x l2.
Proof.
  intros ND. apply NoDup_cons_iff in ND as [N1 N2]. apply NoDup_remove_2 in N2. splits.
  - intros ->. apply N1. apply in_or_app. right. now left.
  - intros X. apply N2. apply in_or_app. now left.
  - intros X. apply N2. apply in_or_app. now right.
Qed.

Lemma holds_ext ns ns' l m : (forall b, In b l -> nc ns' b = nc ns b) -> Forall2 (@holds V t N ns) l m -> Forall2 (@holds V t N ns') l m.
Proof.
  intros H F. induction F as [|b e l m (c & E & R) F IH]; constructor.
  - exists c. split; [|assumption]. rewrite H; [assumption|now left].
  - apply IH. intros x Hx. apply H. now right.
Qed.

(** Replacing the content of one node. *)
Lemma winv_same s ids bl ch s' J1 p J2 C1 e C2 c' e' : winv s ids bl ch -> ids = J1 ++ p :: J2 -> bl = C1 ++ e :: C2 ->
  Forall2 (@holds V t N (wnodes s)) J1 C1 -> Forall2 (@holds V t N (wnodes s)) J2 C2 -> same M s s' p c' -> crep t N c' e' ->
  sorted (concat (C1 ++ e' :: C2)) -> Forall (okkey t) (keys (concat (C1 ++ e' :: C2))) -> shape (C1 ++ e' :: C2) ->
  winv s' ids (C1 ++ e' :: C2) ch.
Proof.
  intros I Ei Eb F1 F2 (A1 & A2 & A3 & A4 & A5) R S K SH. pose proof (w_nd I) as ND. rewrite Ei in ND. destruct (nodup_mid ND) as (P0 & P1 & P2).
  constructor; auto.
  - exact (A3 (w_len I)).
  - rewrite Ei. apply Forall2_app; [|constructor].
    + apply holds_ext with (wnodes s); [|assumption]. intros b Hb. rewrite A4. destruct (Nat.eqb_spec b p) as [->|]; [contradiction|reflexivity].
    + exists c'. split; [|assumption]. now rewrite A4, Nat.eqb_refl.
    + apply holds_ext with (wnodes s); [|assumption]. intros b Hb. rewrite A4. destruct (Nat.eqb_spec b p) as [->|]; [contradiction|reflexivity].
  - exact (w_ne I).
  - exact (w_nd I).
  - intros i Hi. apply wchain_ext with (nfw (wnodes s) i); [|exact (w_chain I Hi)]. intros b _. unfold nfw. apply A5.
  - exact (w_ch0 I).
  - exact (w_chs I).
  - exact (w_chnd I).
  - rewrite A2. exact (w_ht I).
Qed.

(** Keys and blocks after putting [k] into one block. *)
Lemma put_blocks C1 e C2 k v : shape (C1 ++ e :: C2) -> sorted (concat (C1 ++ e :: C2)) -> Forall (okkey t) (keys (concat (C1 ++ e :: C2))) ->
  okkey t k -> alt k (keys (concat C1)) -> agt k (keys (concat C2)) ->
  sorted (concat (C1 ++ ins k v e :: C2)) /\ Forall (okkey t) (keys (concat (C1 ++ ins k v e :: C2))) /\ shape (C1 ++ ins k v e :: C2) /\
  concat (C1 ++ ins k v e :: C2) = ins k v (concat (C1 ++ e :: C2)).
Proof.
  intros SH S K Kk A B. rewrite <- (ins_mid e v A B). splits; auto.
  - now apply sorted_ins.
  - rewrite Forall_forall in *. intros x Hx. apply ins_in_keys in Hx as [->|Hx]; auto.
  - assert (NE : ins k v e <> []) by (intros E0; assert (X : In k (keys (ins k v e))) by (apply ins_in_keys; now left); rewrite E0 in X; destruct X).
    destruct (shape_parts SH) as [[-> ->]|(_ & H1 & H2)]; [left; reflexivity|]. right. apply Forall_app. split; [assumption|]. now constructor.
Qed.

(** ** Searches depend on the bounds only *)
Definition bnd ns (b : nat) : option (Z * Z) := option_map (fun c => (wmin c, wmax c)) (nc ns b).
Lemma walk_ext ns ns' i k : (forall b, bnd ns' b = bnd ns b) -> (forall b, wfwd_at ns' b i = wfwd_at ns b i) ->
  forall fuel a, w_walk fuel ns' i a k = w_walk fuel ns i a k.
Proof.
  intros HB HF.
  assert (NX : forall n, (exists x y, wnode_at ns' n = Ok x /\ wnode_at ns n = Ok y /\ wmin (wc x) = wmin (wc y) /\ wmax (wc x) = wmax (wc y)) \/
    (wnode_at ns' n = UB /\ wnode_at ns n = UB)).
  { intros n. specialize (HB n). unfold bnd, nc in HB. unfold wnode_at. destruct (nth_error ns' n) as [x|], (nth_error ns n) as [y|]; cbn in HB; try discriminate; [left|right; auto].
    exists x, y. splits; auto; congruence. }
  induction fuel as [|fuel IH]; intros a; cbn [w_walk]; rewrite HF; destruct (wfwd_at ns a i) as [[n|]| |]; cbn [bind]; auto;
    destruct (NX n) as [(x & y & -> & -> & E1 & E2)|(-> & ->)]; cbn [bind]; auto; rewrite E1, E2; auto. now rewrite IH.
Qed.
Lemma search_node_ext ns ns' k : length ns' = length ns -> (forall b, bnd ns' b = bnd ns b) -> (forall b i, wfwd_at ns' b i = wfwd_at ns b i) ->
  forall i a, w_search_node i ns' a k = w_search_node i ns a k.
Proof.
  intros HL HB HF. induction i as [|i IH]; intros a; cbn [w_search_node]; rewrite (walk_ext k HB (fun b => HF b _)), HL; [reflexivity|].
  destruct (w_walk (length ns) ns (S i) a k) as [[p|n]| |]; cbn [bind]; auto.
Qed.

(** ** Putting an entry into a node with room *)
Lemma put_phase s ids bl ch J1 p J2 C1 e C2 k v : winv s ids bl ch -> ids = J1 ++ p :: J2 -> bl = C1 ++ e :: C2 ->
  Forall2 (@holds V t N (wnodes s)) J1 C1 -> holds t N (wnodes s) p e -> Forall2 (@holds V t N (wnodes s)) J2 C2 ->
  alt k (keys (concat C1)) -> agt k (keys (concat C2)) -> get k e = None -> length e < N -> okkey t k ->
  exists c q, nc (wnodes s) p = Some c /\ w_put N c p k v = Ok q /\
    (exists s', w_exec s q = Ok s' /\ winv s' ids (C1 ++ ins k v e :: C2) ch /\ length (wnodes s') = length (wnodes s) /\ wheight s' = wheight s /\
       (forall b i, wfwd_at (wnodes s') b i = wfwd_at (wnodes s) b i)) /\
    forall m, exists s', w_exec s (firstn m q) = Ok s' /\ oldnew s s' k v.
Proof.
  intros I Ei Eb F1 (c & Ec & R) F2 A B G L Kk.
  destruct (@w_put_ok V t N M c e p k v R (proj1 Kk) G L) as (q & Eq & HQ). exists c, q. split; [assumption|]. split; [assumption|].
  pose proof (w_shape I) as SH. pose proof (w_srt I) as SO. pose proof (w_key I) as KK. rewrite Eb in SH, SO, KK.
  destruct (put_blocks v SH SO KK Kk A B) as (SO' & KK' & SH' & EI).
  split.
  - destruct (HQ s Ec (length q)) as (s' & c' & E & S & H1 & _). rewrite firstn_all in E. exists s'. split; [assumption|].
    pose proof S as (S1 & S2 & _ & _ & S5). splits; auto. eapply winv_same; eauto.
  - intros m. destruct (HQ s Ec m) as (s' & c' & E & S & _ & [D|[D|(D1 & D2 & D3)]]); exists s'; (split; [assumption|]).
    + eapply oldnew_old; [exact I|eapply winv_same; eauto|congruence].
    + eapply oldnew_new; [exact I|eapply winv_same; eauto|]. rewrite EI. congruence.
    + assert (GN : get k (concat bl) = None) by (rewrite Eb, get_mid; assumption).
      pose proof S as (S1 & S2 & _ & S4 & S5). destruct D3 as [D3|D3].
      * assert (HB : forall b, bnd (wnodes s') b = bnd (wnodes s) b).
        { intros b. unfold bnd. rewrite S4. destruct (Nat.eqb_spec b p) as [->|]; [|reflexivity]. rewrite Ec. cbn [option_map]. congruence. }
        assert (ES : forall x, w_search_node (wheight s') (wnodes s') 0 x = w_search_node (wheight s) (wnodes s) 0 x).
        { intros x. rewrite S2. now apply search_node_ext. }
        assert (OT : forall x, x <> k -> w_search N s' x = w_search N s x).
        { intros x NE. unfold w_search. rewrite ES. destruct (w_search_node (wheight s) (wnodes s) 0 x) as [[n|]| |]; cbn [bind]; auto.
          destruct (Nat.eqb_spec n p) as [->|NP].
          - destruct (nc_some Ec) as (y & Ey & Hy). destruct (nc_some (same_nc S)) as (y' & Ey' & Hy'). unfold wnode_at. rewrite Ey, Ey'. cbn [bind of_opt].
            rewrite Hy, Hy'. rewrite (w_search_srep x D1), (w_search_srep x (crep_srep R)). rewrite get_ins by (apply R). now destruct (Z.eqb_spec x k).
          - specialize (S4 n). rewrite (proj2 (Nat.eqb_neq n p) NP) in S4. unfold nc in S4. unfold wnode_at.
            destruct (nth_error (wnodes s') n) as [y|], (nth_error (wnodes s) n) as [z|]; cbn in S4; try discriminate; [|reflexivity]. injection S4 as S4. cbn [bind of_opt]. now rewrite S4. }
        assert (KO : w_search N s' k = w_search N s k \/ w_search N s' k = Ok (Some v)).
        { unfold w_search. rewrite ES. destruct (w_search_node (wheight s) (wnodes s) 0 k) as [[n|]| |]; cbn [bind]; auto.
          destruct (Nat.eqb_spec n p) as [->|NP].
          - right. destruct (nc_some (same_nc S)) as (y' & Ey' & Hy'). unfold wnode_at. rewrite Ey'. cbn [bind of_opt].
            rewrite Hy', (w_search_srep k D1), get_ins by (apply R). now rewrite Z.eqb_refl.
          - left. specialize (S4 n). rewrite (proj2 (Nat.eqb_neq n p) NP) in S4. unfold nc in S4. unfold wnode_at.
            destruct (nth_error (wnodes s') n) as [y|], (nth_error (wnodes s) n) as [z|]; cbn in S4; try discriminate; [|reflexivity]. injection S4 as S4. cbn [bind of_opt]. now rewrite S4. }
        destruct KO as [KO|KO]; [left|right]; intros x _; destruct (Z.eqb_spec x k) as [->|]; auto.
      * destruct D3 as [D3 D4]. pose proof R as (_ & RK & _ & Rmn & Rmx).
        assert (e = []) as ->.
        { destruct e as [|[x w] e]; [reflexivity|]. exfalso. pose proof (@minl_le _ t ((x, w) :: e) x (or_introl eq_refl)). pose proof (@maxl_ge _ t ((x, w) :: e) x (or_introl eq_refl)). lia. }
        destruct (shape_parts SH) as [[-> ->]|(X & _)]; [|now destruct X]. inversion F1; subst J1. inversion F2; subst J2. cbn [app] in *.
        left. intros x Hx. rewrite (w_search_ok I). rewrite Eb. change (get x (concat [[]])) with (@None V). unfold w_search.
        assert (MX : wmax c = kt_min t) by (rewrite Rmx; reflexivity).
        assert (NP : forall i, i < M -> ch i = [] \/ ch i = [p]).
        { intros i Hi. pose proof (@w_chnd _ _ _ _ _ _ _ _ I i) as ND. assert (HI : forall b, In b (ch i) -> In b ids) by (intros b; apply (ch_ids I)). rewrite Ei in HI. destruct (ch i) as [|a l]; [now left|right].
          destruct (HI a (or_introl eq_refl)) as [->|[]]. destruct l as [|b l]; [reflexivity|]. exfalso.
          destruct (HI b (or_intror (or_introl eq_refl))) as [->|[]]. inversion ND as [|? ? NI _]. apply NI. now left. }
        destruct (nc_some (same_nc S)) as (y' & Ey' & Hy').
        assert (W : forall i a, i < M -> a = 0 \/ (a = p /\ ch i = [p]) -> exists a', w_walk (length (wnodes s')) (wnodes s') i a x = Ok (inl a') /\ (a' = 0 \/ (a' = p /\ ch i = [p]))).
        { intros i a Hi Ha. pose proof (w_chain I Hi) as C.
          assert (P0 : nth_error (wnodes s') p = Some y') by exact Ey'.
          assert (LP : 0 < length (wnodes s')) by (assert (p < length (wnodes s')) by (apply nth_error_Some; congruence); lia).
          destruct (length (wnodes s')) as [|fuel]; [lia|]. cbn [w_walk].
          destruct Ha as [->|[-> Ep]].
          - destruct (NP i Hi) as [E0|E0]; rewrite E0 in C; cbn in C; unfold nfw in C.
            + rewrite S5, C. cbn [bind]. exists 0. auto.
            + destruct C as [C1 C2]. rewrite S5, C1. cbn [bind]. unfold wnode_at. rewrite Ey'. cbn [bind of_opt]. rewrite Hy', D2, D3, MX.
              destruct (Z.gtb_spec x (kt_min t)).
              * exists p. split; [|auto]. destruct fuel; cbn [w_walk]; rewrite S5, C2; reflexivity.
              * exists 0. split; [|auto]. destruct Hx as [Hx _]. destruct (Z.ltb_spec x k); [reflexivity|lia].
          - rewrite Ep in C. cbn in C. unfold nfw in C. destruct C as [_ C2]. rewrite S5, C2. cbn [bind]. exists p. auto. }
        assert (SN : forall i a, i < M -> a = 0 \/ (a = p /\ ch i = [p]) -> w_search_node i (wnodes s') a x = Ok None).
        { induction i as [|i IH]; intros a Hi Ha; cbn [w_search_node]; destruct (W _ a Hi Ha) as (a' & E' & H'); rewrite E'; cbn [bind]; [reflexivity|].
          apply IH; [lia|]. destruct H' as [->|[-> H']]; [now left|right]. split; [reflexivity|].
          destruct (NP i) as [E0|E0]; [lia| |assumption]. exfalso. assert (HI : incl (ch (Datatypes.S i)) (ch i)) by exact (@w_chs _ _ _ _ _ _ _ _ I i). rewrite H', E0 in HI. apply (HI p). now left. }
        rewrite S2, SN; [reflexivity|exact (w_ht I)|now left].
Qed.

(** ** Splitting a node *)
Lemma set_wfwd_ok ns p i o : p < length ns -> lens M ns -> i < M ->
  exists ns', set_wfwd ns p i o = Ok ns' /\ length ns' = length ns /\ lens M ns' /\ (forall b, nc ns' b = nc ns b) /\
    (forall b j, wfwd_at ns' b j = if (b =? p) && (j =? i) then Ok o else wfwd_at ns b j).
Proof.
  intros Hp F Hi. unfold lens in *. destruct (nth_error ns p) as [x|] eqn:E; [|apply nth_error_None in E; lia].
  assert (Lx : length (wfwd x) = M) by (rewrite Forall_forall in F; apply F; now apply nth_error_In in E).
  unfold set_wfwd, wnode_at. rewrite E. cbn [bind of_opt].
  destruct (@lset_some _ (wfwd x) i o) as (f & Ef); [lia|]. rewrite Ef. cbn [bind of_opt].
  destruct (@lset_some _ ns p (WNode (wc x) (wlev x) f) Hp) as (ns' & En). rewrite En. cbn [of_opt].
  exists ns'. splits; [reflexivity|now rewrite (lset_length En)| | |].
  - apply Forall_forall. intros y Hy. apply In_nth_error in Hy as (q & Hq). rewrite (lset_nth q En) in Hq.
    destruct (Nat.eqb_spec q p).
    + injection Hq as <-. cbn. now rewrite (lset_length Ef).
    + rewrite Forall_forall in F. apply F. now apply nth_error_In in Hq.
  - intros b. unfold nc. rewrite (lset_nth b En). destruct (Nat.eqb_spec b p) as [->|]; [|reflexivity]. now rewrite E.
  - intros b j. unfold wfwd_at, wnode_at. rewrite (lset_nth b En). destruct (Nat.eqb_spec b p) as [->|]; [|reflexivity].
    cbn [bind of_opt wfwd andb]. rewrite (lset_nth j Ef). rewrite E. cbn [bind of_opt].
    destruct (Nat.eqb_spec j i); reflexivity.
Qed.

Lemma fwd_total ns b i : b < length ns -> lens M ns -> i < M -> exists o, wfwd_at ns b i = Ok o.
Proof.
  intros Hb F Hi. destruct (nth_error ns b) as [x|] eqn:E; [|apply nth_error_None in E; lia]. unfold wfwd_at, wnode_at. rewrite E. cbn [bind of_opt].
  unfold lens in F. rewrite Forall_forall in F. specialize (F x (nth_error_In _ _ E)). destruct (nth_error (wfwd x) i) eqn:G; [cbn; eauto|].
  apply nth_error_None in G. lia.
Qed.

(** Storing into the forward pointers of a node that is on no chain of that level. *)
Lemma alloc_ok s ids bl ch x : winv s ids bl ch -> length (wfwd x) = M ->
  exists s', w_step s (WAlloc x) = Ok s' /\ winv s' ids bl ch /\ wnodes s' = wnodes s ++ [x] /\ wheight s' = wheight s.
Proof.
  intros I Lx. cbn [w_step]. eexists. split; [reflexivity|]. cbn [wnodes wheight]. splits; auto.
  assert (NE : forall b, b < length (wnodes s) -> nth_error (wnodes s ++ [x]) b = nth_error (wnodes s) b) by (intros; now rewrite nth_error_app1).
  pose proof (zero_bound I) as Z0. pose proof (id_bound I) as IB.
  constructor; cbn [wnodes wheight]; try apply I.
  - apply Forall_app. split; [exact (w_len I)|auto].
  - apply holds_ext with (wnodes s); [|exact (w_blk I)]. intros b Hb. unfold nc. now rewrite NE by auto.
  - intros i Hi. apply wchain_ext with (nfw (wnodes s) i); [|exact (w_chain I Hi)]. intros b Hb. unfold nfw, wfwd_at, wnode_at. rewrite NE; [reflexivity|].
    destruct Hb as [<-|Hb]; [assumption|]. apply IB. now apply (ch_ids I) in Hb.
Qed.

(** Linking [new] behind [last A 0] on one level: the two stores. *)
Lemma link_stores_ok ns new p i A B : lens M ns -> i < M -> new < length ns -> p < length ns ->
  wchain (nfw ns i) 0 (A ++ B) -> last A 0 = p -> NoDup (0 :: A ++ B) -> ~ In new (0 :: A ++ B) ->
  exists o ns1 ns2, wfwd_at ns p i = Ok o /\ set_wfwd ns new i o = Ok ns1 /\ set_wfwd ns1 p i (Some new) = Ok ns2 /\
    lens M ns1 /\ lens M ns2 /\ length ns1 = length ns /\ length ns2 = length ns /\
    (forall b, nc ns1 b = nc ns b) /\ (forall b, nc ns2 b = nc ns b) /\
    wchain (nfw ns1 i) 0 (A ++ B) /\ wchain (nfw ns2 i) 0 (A ++ new :: B) /\ wfwd_at ns2 p i = Ok (Some new) /\
    (forall b j, j <> i -> wfwd_at ns1 b j = wfwd_at ns b j) /\ (forall b j, j <> i -> wfwd_at ns2 b j = wfwd_at ns b j).
Proof.
  intros F Hi Hn Hp C EP ND NI. destruct (fwd_total Hp F Hi) as (o & Eo).
  assert (NP : new <> p).
  { intros ->. apply NI. rewrite <- EP. destruct (last_in A 0) as [->|X]; [now left|right]. apply in_or_app. now left. }
  destruct (@set_wfwd_ok ns new i o Hn F Hi) as (ns1 & E1 & Ln1 & F1 & HE1 & HF1).
  destruct (@set_wfwd_ok ns1 p i (Some new)) as (ns2 & E2 & Ln2 & F2 & HE2 & HF2); [lia|assumption|assumption|].
  exists o, ns1, ns2. splits; auto; try lia.
  - intros b. now rewrite HE2, HE1.
  - apply wchain_ext with (nfw ns i); [|assumption]. intros b Hb. unfold nfw. rewrite HF1. destruct (Nat.eqb_spec b new) as [->|]; [contradiction|reflexivity].
  - apply wchain_ins with (nfw ns i); auto; unfold nfw.
    + intros b B1 B2. rewrite EP in B2. rewrite HF2, HF1. rewrite (proj2 (Nat.eqb_neq b p)) by exact B2. rewrite (proj2 (Nat.eqb_neq b new)) by exact B1. reflexivity.
    + rewrite EP, HF2. now rewrite !Nat.eqb_refl.
    + rewrite EP, HF2, HF1. rewrite (proj2 (Nat.eqb_neq new p)) by exact NP. rewrite !Nat.eqb_refl. cbn [andb]. now rewrite Eo.
  - rewrite HF2, !Nat.eqb_refl. reflexivity.
  - intros b j Hj. rewrite HF1. rewrite (proj2 (Nat.eqb_neq j i)) by exact Hj. now rewrite andb_false_r.
  - intros b j Hj. rewrite HF2, HF1. rewrite (proj2 (Nat.eqb_neq j i)) by exact Hj. now rewrite !andb_false_r.
Qed.

Hypothesis HN : 2 <= N.
Hypothesis Ht : (1 <= kt_bits t <= 64)%Z.

Lemma split_phase s ids bl ch J1 p J2 C1 e C2 : winv s ids bl ch -> ids = J1 ++ p :: J2 -> bl = C1 ++ e :: C2 ->
  Forall2 (@holds V t N (wnodes s)) J1 C1 -> holds t N (wnodes s) p e -> Forall2 (@holds V t N (wnodes s)) J2 C2 -> length e = N ->
  let new := length (wnodes s) in
  exists c sk qs e1 e2 s1, nc (wnodes s) p = Some c /\ w_split t N M c p new = Ok (sk, qs) /\ length qs = 6 /\
    e = e1 ++ e2 /\ length e1 < N /\ length e2 < N /\ (forall k, In k (keys e1) -> k < sk)%Z /\ (forall k, In k (keys e2) -> sk <= k)%Z /\
    w_exec s qs = Ok s1 /\ wfwd_at (wnodes s1) p 0 = Ok (Some new) /\ wheight s1 = wheight s /\
    Forall2 (@holds V t N (wnodes s1)) J1 C1 /\ holds t N (wnodes s1) p e1 /\ holds t N (wnodes s1) new e2 /\ Forall2 (@holds V t N (wnodes s1)) J2 C2 /\
    winv s1 (J1 ++ p :: new :: J2) (C1 ++ e1 :: e2 :: C2) (fun i => if i =? 0 then J1 ++ p :: new :: J2 else ch i) /\
    (exists s2 ids2 ch2, w_exec s (firstn 1 qs) = Ok s2 /\ winv s2 ids2 bl ch2).
Proof.
  intros I Ei Eb F1 (c & Ec & R) F2 L new.
  pose proof (w_shape I) as SH. pose proof (w_srt I) as SO. pose proof (w_key I) as KK. rewrite Eb in SH, SO, KK.
  destruct (@w_split_ok V t N M HN Ht c e p new R L) as (sk & b & c1 & c2 & e1 & e2 & ES & B1 & B2 & B3 & R1 & R2 & Ee & NE1 & NE2 & L1 & L2 & K1 & K2).
  { intros k Hk. pose proof (mid_keys KK) as X. rewrite Forall_forall in X. now apply X. }
  set (x2 := WNode c2 0 (repeat None M)) in *. exists c, sk. eexists. exists e1, e2.
  destruct (@alloc_ok s ids bl ch x2 I) as (s1 & X1 & I1 & N1 & H1); [apply repeat_length|].
  assert (Bp : p < length (wnodes s)) by (apply (id_bound I); rewrite Ei; apply in_or_app; right; now left).
  assert (Ec1 : nc (wnodes s1) p = Some c). { unfold nc. rewrite N1, nth_error_app1 by assumption. exact Ec. }
  destruct (@set_cell_ok V M s1 p c (WCell b (wk c) (wv c) (wmin c) (wmax c)) (fun c => Ok (WCell b (wk c) (wv c) (wmin c) (wmax c))) Ec1 eq_refl) as (s2 & X2 & S2).
  destruct (@set_cell_ok V M s2 p _ (WCell b (wk c) (wv c) (wmin c) (wmax c1)) (fun c => Ok (WCell (wb c) (wk c) (wv c) (wmin c) (wmax c1))) (same_nc S2) eq_refl) as (s3 & X3 & S3).
  destruct (@set_cell_ok V M s3 p _ (WCell b (wk c) (wv c) (wmin c1) (wmax c1)) (fun c => Ok (WCell (wb c) (wk c) (wv c) (wmin c1) (wmax c))) (same_nc S3) eq_refl) as (s4 & X4 & S4).
  assert (S := same_trans (same_trans S2 S3) S4). clear S2 S3 S4.
  assert (E1 : WCell b (wk c) (wv c) (wmin c1) (wmax c1) = c1) by (rewrite <- B1, <- B2, <- B3; now destruct c1). rewrite E1 in S.
  pose proof S as (S1 & S2 & S3 & S4 & S5). pose proof (w_nd I) as ND. rewrite Ei in ND. destruct (nodup_mid ND) as (P0 & P1 & P2).
  assert (IB := id_bound I). pose proof (zero_bound I) as Z0. pose proof (w_ht I) as HH.
  assert (NI : ~ In new (0 :: ids)). { intros [X|X]; [unfold new in X; lia|]. apply IB in X. unfold new in X. lia. }
  assert (Ln4 : length (wnodes s4) = 1 + length (wnodes s)) by (rewrite S1, N1, app_length; cbn [length]; lia).
  assert (C4 : wchain (nfw (wnodes s4) 0) 0 ((J1 ++ [p]) ++ J2)).
  { apply wchain_ext with (nfw (wnodes s1) 0); [intros y _; unfold nfw; apply S5|]. rewrite <- app_assoc. cbn [app]. rewrite <- Ei, <- (w_ch0 I). apply (w_chain I1). lia. }
  destruct (@link_stores_ok (wnodes s4) new p 0 (J1 ++ [p]) J2) as (o & n5 & n6 & Eo & E5 & E6 & G5 & G6 & Q5 & Q6 & NC5 & NC6 & _ & CH6 & FP & _ & FW6).
  { exact (S3 (w_len I1)). } { lia. } { rewrite Ln4. unfold new. lia. } { lia. } { exact C4. }
  { now rewrite last_app_cons. } { now rewrite <- app_assoc. } { rewrite <- app_assoc. cbn [app]. now rewrite <- Ei. }
  assert (X5 : w_step s4 (WCopy new p 0) = Ok (WList n5 (wheight s4) (wcount s4))).
  { cbn [w_step]. rewrite Eo. cbn [bind]. rewrite E5. reflexivity. }
  assert (X6 : w_step (WList n5 (wheight s4) (wcount s4)) (WFwd p 0 new) = Ok (WList n6 (wheight s4) (wcount s4))).
  { cbn [w_step wnodes]. rewrite E6. reflexivity. }
  exists (WList n6 (wheight s4) (wcount s4)). cbn [wnodes wheight].
  assert (NCO : forall y, y <> p -> y <> new -> nc n6 y = nc (wnodes s) y).
  { intros y Y1 Y2. rewrite NC6, S4. rewrite (proj2 (Nat.eqb_neq y p) Y1). unfold nc. rewrite N1. destruct (Nat.ltb_spec y (length (wnodes s))).
    - now rewrite nth_error_app1.
    - rewrite nth_error_app2 by lia. rewrite (proj2 (nth_error_None (wnodes s) y)) by lia. destruct (y - length (wnodes s)) as [|q] eqn:Q; [unfold new in Y2; lia|]. destruct q; reflexivity. }
  assert (HJ1 : Forall2 (@holds V t N n6) J1 C1).
  { apply holds_ext with (wnodes s); [|assumption]. intros y Hy. apply NCO; [intros ->; contradiction|]. intros ->. apply NI. right. rewrite Ei. apply in_or_app. now left. }
  assert (HJ2 : Forall2 (@holds V t N n6) J2 C2).
  { apply holds_ext with (wnodes s); [|assumption]. intros y Hy. apply NCO; [intros ->; contradiction|]. intros ->. apply NI. right. rewrite Ei. apply in_or_app. right. now right. }
  assert (Hp1 : holds t N n6 p e1). { exists c1. split; [|assumption]. now rewrite NC6, S4, Nat.eqb_refl. }
  assert (Hp2 : holds t N n6 new e2).
  { exists c2. split; [|assumption]. rewrite NC6, S4. destruct (Nat.eqb_spec new p) as [X|_]; [unfold new in X; lia|].
    unfold nc. rewrite N1, nth_error_app2 by (unfold new; lia). unfold new. rewrite Nat.sub_diag. reflexivity. }
  split; [assumption|]. split; [exact ES|]. split; [reflexivity|]. splits; auto.
  - change (w_step s1 (WBits p b) = Ok s2) in X2. change (w_step s2 (WMax p (wmax c1)) = Ok s3) in X3. change (w_step s3 (WMin p (wmin c1)) = Ok s4) in X4.
    cbn [w_exec]. rewrite X1. cbn [bind]. rewrite X2. cbn [bind]. rewrite X3. cbn [bind]. rewrite X4. cbn [bind]. rewrite X5. cbn [bind]. rewrite X6. reflexivity.
  - congruence.
  - assert (ECC : concat (C1 ++ e1 :: e2 :: C2) = concat (C1 ++ e :: C2)).
    { rewrite !concat_mid. cbn [concat]. rewrite Ee. now rewrite <- !app_assoc. }
    constructor; cbn [wnodes wheight].
    + exact G6.
    + apply Forall2_app; [exact HJ1|]. constructor; [exact Hp1|]. constructor; [exact Hp2|exact HJ2].
    + destruct J1; discriminate.
    + now rewrite ECC.
    + now rewrite ECC.
    + replace (0 :: J1 ++ p :: new :: J2) with ((0 :: J1 ++ [p]) ++ new :: J2) by (cbn [app]; now rewrite <- app_assoc).
      apply NoDup_Add with (a := new) (l := (0 :: J1 ++ [p]) ++ J2); [apply Add_app|]. cbn [app]. rewrite <- app_assoc. cbn [app]. split; [exact ND|now rewrite <- Ei].
    + right. destruct (shape_parts SH) as [[-> ->]|(_ & Q1 & Q2)].
      * cbn [app]. repeat constructor; assumption.
      * apply Forall_app. split; [assumption|]. repeat constructor; assumption.
    + intros i Hi. destruct (Nat.eqb_spec i 0) as [->|Ni].
      * rewrite <- app_assoc in CH6. exact CH6.
      * apply wchain_ext with (nfw (wnodes s1) i); [|exact (w_chain I1 Hi)]. intros y _. unfold nfw. rewrite FW6 by assumption. apply S5.
    + reflexivity.
    + intros i. destruct (Nat.eqb_spec (Datatypes.S i) 0) as [|_]; [lia|]. destruct (Nat.eqb_spec i 0) as [->|Ni].
      * intros y Hy. apply (w_chs I) in Hy. rewrite (w_ch0 I), Ei in Hy. apply in_app_or in Hy as [Hy|[<-|Hy]]; apply in_or_app; [now left|right; now left|right; right; now right].
      * apply (w_chs I).
    + intros i. destruct (Nat.eqb_spec i 0) as [->|Ni]; [|apply (w_chnd I)].
      replace (J1 ++ p :: new :: J2) with ((J1 ++ [p]) ++ new :: J2) by now rewrite <- app_assoc.
      apply NoDup_Add with (a := new) (l := (J1 ++ [p]) ++ J2); [apply Add_app|]. rewrite <- app_assoc. cbn [app]. split; [now inversion ND|]. intros X. apply NI. right. now rewrite Ei.
    + rewrite S2, H1. exact HH.
  - exists s1, ids, ch. cbn [firstn w_exec]. rewrite X1. cbn [bind]. auto.
Qed.
(** ** Linking the sibling on the upper levels *)
Lemma winv_fwd s ids bl ch ns' h cnt ch' : winv s ids bl ch -> lens M ns' -> (forall b, nc ns' b = nc (wnodes s) b) -> h < M ->
  (forall i, i < M -> wchain (nfw ns' i) 0 (ch' i)) -> ch' 0 = ids -> (forall i, incl (ch' (S i)) (ch' i)) -> (forall i, NoDup (ch' i)) ->
  winv (WList ns' h cnt) ids bl ch'.
Proof.
  intros I F E Hh C C0 CS CN. constructor; cbn [wnodes wheight]; try apply I; auto.
  apply holds_ext with (wnodes s); [|exact (w_blk I)]. intros b _. apply E.
Qed.

Lemma link_level s ids bl ch new p i : winv s ids bl ch -> 1 <= i < M -> p = 0 \/ In p (ch i) -> In new (ch (i - 1)) -> ~ In new (ch i) ->
  exists s1 s2 ch2, w_step s (WCopy new p i) = Ok s1 /\ winv s1 ids bl ch /\ w_step s1 (WFwd p i new) = Ok s2 /\ winv s2 ids bl ch2 /\
    In new (ch2 i) /\ (forall j, j <> i -> ch2 j = ch j).
Proof.
  intros I Hi Hp Hnew NI. pose proof (@w_chnd _ _ _ _ _ _ _ _ I i) as CN.
  assert (HI : forall b, In b (ch i) -> In b ids) by (intros b; apply (ch_ids I)).
  assert (exists A B, ch i = A ++ B /\ last A 0 = p) as (A & B & EC & EP).
  { destruct Hp as [->|Hp]; [exists [], (ch i); auto|]. apply in_split in Hp as (a & b & E). exists (a ++ [p]), b. rewrite <- app_assoc. split; [assumption|]. now rewrite last_app_cons. }
  pose proof (w_nd I) as ND. apply NoDup_cons_iff in ND as [N0 _].
  assert (ND : NoDup (0 :: A ++ B)). { rewrite <- EC. constructor; [|assumption]. intros X. apply N0. now apply HI. }
  assert (Hn : In new ids) by now apply (ch_ids I) in Hnew.
  assert (NI' : ~ In new (0 :: A ++ B)). { rewrite <- EC. intros [X|X]; [|contradiction]. apply N0. congruence. }
  assert (CI : wchain (nfw (wnodes s) i) 0 (A ++ B)) by (rewrite <- EC; apply (w_chain I); lia).
  assert (Bp : p < length (wnodes s)) by (destruct Hp as [->|Hp]; [exact (zero_bound I)|apply (id_bound I); auto]).
  assert (HM : i < M) by lia.
  destruct (@link_stores_ok (wnodes s) new p i A B (w_len I) HM (id_bound I Hn) Bp CI EP ND NI') as (o & n1 & n2 & Eo & E1 & E2 & G1 & G2 & Q1 & Q2 & NC1 & NC2 & W1 & W2 & _ & FW1 & FW2).
  exists (WList n1 (wheight s) (wcount s)), (WList n2 (wheight s) (wcount s)), (fun j => if j =? i then A ++ new :: B else ch j).
  cbn [w_step wnodes]. rewrite Eo. cbn [bind]. rewrite E1, E2. cbn [on_nodes bind]. splits; auto.
  - apply winv_fwd with s ch; auto; try apply I. intros j Hj. destruct (Nat.eq_dec j i) as [->|NE]; [now rewrite EC|].
    apply wchain_ext with (nfw (wnodes s) j); [|exact (w_chain I Hj)]. intros b _. now apply FW1.
  - apply winv_fwd with s ch; auto; try apply I.
    + intros j Hj. destruct (Nat.eqb_spec j i) as [->|NE]; [exact W2|].
      apply wchain_ext with (nfw (wnodes s) j); [|exact (w_chain I Hj)]. intros b _. now apply FW2.
    + destruct (Nat.eqb_spec 0 i); [lia|]. exact (w_ch0 I).
    + intros j. assert (IJ : incl (ch (S j)) (ch j)) by exact (@w_chs _ _ _ _ _ _ _ _ I j).
      destruct (Nat.eqb_spec (S j) i) as [X|X], (Nat.eqb_spec j i) as [Y|Y]; try lia; auto.
      * replace (i - 1) with j in Hnew by lia. intros y Hy. apply in_app_or in Hy as [Hy|[<-|Hy]]; auto; apply IJ; rewrite X, EC; apply in_or_app; auto.
      * intros y Hy. apply IJ in Hy. rewrite Y, EC in Hy. apply in_app_or in Hy as [Hy|Hy]; apply in_or_app; [now left|right; now right].
    + intros j. destruct (Nat.eqb_spec j i) as [->|NE]; [|exact (@w_chnd _ _ _ _ _ _ _ _ I j)].
      apply NoDup_Add with (a := new) (l := A ++ B); [apply Add_app|]. rewrite <- EC. split; assumption.
  - rewrite Nat.eqb_refl. apply in_or_app. right. now left.
  - intros j Hj. now rewrite (proj2 (Nat.eqb_neq j i) Hj).
Qed.

Lemma link_phase u new : forall n i s ids bl ch, winv s ids bl ch -> 1 <= i -> i + n <= M -> In new (ch (i - 1)) -> (forall j, i <= j -> ~ In new (ch j)) ->
  (forall j, i <= j < i + n -> exists p, nth_error u j = Some (Some p) /\ (p = 0 \/ In p (ch j))) ->
  exists q, w_link V n i new u = Ok q /\ forall m, exists s' ch', w_exec s (firstn m q) = Ok s' /\ winv s' ids bl ch'.
Proof.
  induction n as [|n IH]; intros i s ids bl ch I Hi HM Hnew NI Hu; cbn [w_link].
  - exists []. split; [reflexivity|]. intros m. rewrite firstn_nil. exists s, ch. auto.
  - destruct (Hu i) as (p & Ep & Hp); [lia|]. rewrite Ep. cbn [bind of_opt].
    destruct (@link_level s ids bl ch new p i I) as (s1 & s2 & ch2 & E1 & I1 & E2 & I2 & N2 & O2); auto; [lia|].
    destruct (IH (S i) s2 ids bl ch2 I2) as (q & Eq & HQ); try lia.
    + now replace (S i - 1) with i by lia.
    + intros j Hj. rewrite O2 by lia. apply NI. lia.
    + intros j Hj. rewrite O2 by lia. apply Hu. lia.
    + rewrite Eq. cbn [bind]. eexists. split; [reflexivity|]. intros [|[|m]].
      * exists s, ch. auto.
      * exists s1, ch. cbn [firstn w_exec]. rewrite E1. cbn [bind]. auto.
      * destruct (HQ m) as (s' & ch' & E & I'). exists s', ch'. cbn [firstn w_exec]. rewrite E1. cbn [bind]. rewrite E2. cbn [bind]. auto.
Qed.

Lemma level_step s ids bl ch p l : winv s ids bl ch -> p < length (wnodes s) ->
  exists s', w_step s (WLevel p l) = Ok s' /\ winv s' ids bl ch.
Proof.
  intros I Hp. destruct (nth_error (wnodes s) p) as [x|] eqn:E; [|apply nth_error_None in E; lia]. cbn [w_step]. unfold wnode_at. rewrite E. cbn [bind of_opt].
  destruct (@lset_some _ (wnodes s) p (WNode (wc x) l (wfwd x)) Hp) as (ns' & En). rewrite En. cbn [of_opt on_nodes bind]. eexists. split; [reflexivity|].
  apply winv_fwd with s ch; auto; try apply I.
  - pose proof (w_len I) as F. unfold lens in *. rewrite Forall_forall in *. intros y Hy. apply In_nth_error in Hy as (q & Hq). rewrite (lset_nth q En) in Hq.
    destruct (q =? p); [injection Hq as <-; cbn|]; apply F; eapply nth_error_In; eauto.
  - intros b. unfold nc. rewrite (lset_nth b En). destruct (Nat.eqb_spec b p) as [->|]; [now rewrite E|reflexivity].
  - intros i Hi. apply wchain_ext with (nfw (wnodes s) i); [|exact (w_chain I Hi)]. intros b _. unfold nfw, wfwd_at, wnode_at. rewrite (lset_nth b En).
    destruct (Nat.eqb_spec b p) as [->|]; [now rewrite E|reflexivity].
Qed.

Lemma next_of (f : nat -> res (option nat)) B : forall A a, wchain f a (A ++ B) -> f (last A a) = Ok (hd_error B).
Proof.
  induction A as [|c A IH]; intros a C; cbn [app] in C.
  - cbn [last]. destruct B; cbn in *; tauto.
  - rewrite last_cons. cbn [wchain] in C. apply IH. tauto.
Qed.

(** The node an insert works on. *)
Lemma target s ids bl ch k : winv s ids bl ch -> 2 <= M -> exists u n p nx J1 J2 C1 e C2,
  w_descend (wheight s) (wnodes s) 0 k (repeat None M) = Ok (n, u) /\ length u = M /\
  (forall j, j <= wheight s -> exists q, nth_error u j = Some (Some q) /\ (q = 0 \/ In q (ch j))) /\
  wfwd_at (wnodes s) n 0 = Ok nx /\ p = match nx with Some p => p | None => n end /\
  ids = J1 ++ p :: J2 /\ bl = C1 ++ e :: C2 /\ Forall2 (@holds V t N (wnodes s)) J1 C1 /\ holds t N (wnodes s) p e /\ Forall2 (@holds V t N (wnodes s)) J2 C2 /\
  alt k (keys (concat C1)) /\ agt k (keys (concat C2)).
Proof.
  intros I HM. destruct (split_bottom I k) as (I1 & I2 & B1 & B2 & E1 & E2 & F1 & F2 & H1 & H2 & A & AB).
  destruct (@descend_ok V t N M s ids bl ch I k I1 I2 E1 H1 H2 (wheight s) 0 (repeat None M)) as (u & Eu & Lu & Nu).
  { now left. } { exact (w_ht I). } { apply repeat_length. }
  assert (EN : wfwd_at (wnodes s) (last I1 0) 0 = Ok (hd_error I2)).
  { assert (C : wchain (nfw (wnodes s) 0) 0 (ch 0)) by (apply (w_chain I); lia). rewrite (w_ch0 I), E1 in C. exact (next_of C). }
  assert (HU : forall j, j <= wheight s -> exists q, nth_error u j = Some (Some q) /\ (q = 0 \/ In q (ch j))).
  { intros j Hj. specialize (Nu j). rewrite (proj2 (Nat.leb_le j (wheight s)) Hj) in Nu. destruct Nu as (q & Eq & [Hq|[Hq _]]); eauto. }
  exists u, (last I1 0), (match hd_error I2 with Some p => p | None => last I1 0 end), (hd_error I2).
  destruct I2 as [|p I2]; cbn [hd_error] in *.
  - inversion F2; subst B2. rewrite app_nil_r in E1, E2.
    destruct (@exists_last _ I1) as (J1 & p & EJ); [intros X; apply (w_ne I); congruence|].
    rewrite EJ in F1. apply Forall2_app_inv_l in F1 as (C1 & C2 & F11 & F12 & EB). apply f2_cons in F12 as (e & C3 & -> & Hp & F13). inversion F13; subst C3.
    exists J1, [], C1, e, []. rewrite EJ, last_app_cons. cbn [last]. rewrite EJ in Eu, EN. rewrite last_app_cons in Eu, EN. cbn [last] in Eu, EN.
    splits; auto; try congruence.
    + rewrite EB, concat_mid, keys_app in A. apply Forall_app in A. tauto.
    + constructor.
  - apply f2_cons in F2 as (e & B & -> & Hp & F2). exists I1, I2, B1, e, B. splits; auto.
Qed.

Theorem insert_stores_ok s ids bl ch k v r : winv s ids bl ch -> 2 <= M -> r < M -> okkey t k ->
  exists b p, w_insert_stores t N M s k v r = Ok (b, p) /\ (b = true <-> get k (concat bl) = None) /\
    (exists s' ids' bl' ch', w_exec s p = Ok s' /\ winv s' ids' bl' ch' /\ concat bl' = ins k v (concat bl)) /\
    forall m, (forall x, ~ In (WAlloc x) p) \/ m <= 1 \/ 6 <= m -> exists s', w_exec s (firstn m p) = Ok s' /\ oldnew s s' k v.
Proof.
  intros I HM Hr Kk. destruct (target k I HM) as (u & n & p & nx & J1 & J2 & C1 & e & C2 & Eu & Lu & HU & EN & EP & Ei & Eb & F1 & Hp & F2 & A & B).
  unfold w_insert_stores. rewrite Eu. cbn [bind]. rewrite EN. cbn [bind]. rewrite <- EP.
  pose proof Hp as (c & Ec & R). destruct (nc_some Ec) as (x & Ex & Hx). unfold wnode_at at 1. rewrite Ex. cbn [bind of_opt]. rewrite Hx.
  pose proof R as (RS & RK & (sl & RP & RR) & Rmn & Rmx).
  pose proof (w_shape I) as SH. pose proof (w_srt I) as SO. pose proof (w_key I) as KK. rewrite Eb in SH, SO, KK.
  assert (EG : get k (concat bl) = get k e) by (rewrite Eb; now apply get_mid).
  destruct (put_blocks v SH SO KK Kk A B) as (SO' & KK' & SH' & EI).
  destruct (w_find_get k RR RP RS) as (o & Eo & Ho). rewrite Eo. cbn [bind]. destruct o as [i|].
  - (* overwrite *)
    destruct Ho as (w & Ei' & G). eexists false, _. split; [reflexivity|]. split.
    { rewrite EG, G. split; discriminate. }
    destruct (@w_val_ok V t N M c e p k v w sl i R RR RP Ei' s Ec) as (s' & c' & E' & S' & R').
    assert (I' : winv s' ids (C1 ++ ins k v e :: C2) ch) by (eapply winv_same; eauto).
    assert (EX : w_exec s [WVal p i v] = Ok s') by (cbn [w_exec]; rewrite E'; reflexivity).
    split.
    + exists s', ids, (C1 ++ ins k v e :: C2), ch. rewrite Eb. auto.
    + intros [|m] _.
      * exists s. split; [reflexivity|]. left. auto.
      * exists s'. split; [cbn [firstn]; rewrite firstn_nil; exact EX|]. eapply oldnew_new; eauto. now rewrite Eb.
  - unfold w_insert_in, wnode_at at 1. rewrite Ex. cbn [bind of_opt]. rewrite Hx.
    destruct (@full_ok V t N M HN Ht c e R) as (b & Efull & Le & Hfull). rewrite Efull. cbn [bind].
    destruct b.
    2:{ (* room *)
      assert (L : length e < N). { destruct (Nat.eq_dec (length e) N) as [X|X]; [|lia]. apply Hfull in X. discriminate. }
      destruct (@put_phase s ids bl ch J1 p J2 C1 e C2 k v I Ei Eb F1 Hp F2 A B Ho L Kk) as (c0 & q & Ec0 & Eq & (s' & Es & I' & _) & HQ).
      rewrite Ec in Ec0. injection Ec0 as <-. rewrite Eq. cbn [bind fst snd]. exists true, q. splits; auto.
      - rewrite EG. tauto.
      - exists s', ids, (C1 ++ ins k v e :: C2), ch. rewrite Eb. auto. }
    (* split *)
    assert (L : length e = N) by now apply Hfull.
    destruct (@split_phase s ids bl ch J1 p J2 C1 e C2 I Ei Eb F1 Hp F2 L) as
      (c0 & sk & qs & e1 & e2 & s1 & Ec0 & Eqs & Lqs & Ee & L1 & L2 & K1 & K2 & Es1 & EF & Hh1 & F11 & Hp1 & Hp2 & F12 & I1 & (s2 & ids2 & ch2 & E2 & I2)).
    rewrite Ec in Ec0. injection Ec0 as <-. set (new := length (wnodes s)) in *. rewrite Eqs. cbn [bind fst snd]. rewrite Es1. cbn [bind].
    set (ids1 := J1 ++ p :: new :: J2) in *. set (ch1 := fun i => if i =? 0 then ids1 else ch i) in *.
    assert (PUT : exists tgt bl2 c1 q, (if (k >=? sk)%Z then do o <- wfwd_at (wnodes s1) p 0; of_opt o else Ok p) = Ok tgt /\ nc (wnodes s1) tgt = Some c1 /\ w_put N c1 tgt k v = Ok q /\
      (exists s', w_exec s1 q = Ok s' /\ winv s' ids1 bl2 ch1 /\ length (wnodes s') = length (wnodes s1) /\ wheight s' = wheight s1 /\ (forall b i, wfwd_at (wnodes s') b i = wfwd_at (wnodes s1) b i)) /\
      concat bl2 = ins k v (concat bl) /\ forall m, exists s', w_exec s1 (firstn m q) = Ok s' /\ oldnew s1 s' k v).
    { rewrite Eb. destruct (Z.geb_spec k sk) as [G|G].
      - assert (A1 : alt k (keys e1)) by (apply alt_in; intros y Hy; specialize (K1 y Hy); lia).
        assert (G2 : get k e2 = None) by (rewrite <- (get_app_lt e2 A1), <- Ee; exact Ho).
        destruct (@put_phase s1 ids1 (C1 ++ e1 :: e2 :: C2) ch1 (J1 ++ [p]) new J2 (C1 ++ [e1]) e2 C2 k v I1) as (c1 & q & Ec1 & Eq & X & HQ); auto.
        + unfold ids1. now rewrite <- app_assoc.
        + now rewrite <- app_assoc.
        + apply Forall2_app; [assumption|]. now repeat constructor.
        + rewrite concat_app, keys_app. apply Forall_app. split; [assumption|]. cbn [concat]. now rewrite app_nil_r.
        + exists new. rewrite EF. cbn [bind of_opt]. do 3 eexists. split; [reflexivity|]. split; [exact Ec1|]. split; [exact Eq|]. split; [exact X|]. split; [|exact HQ].
          rewrite <- app_assoc. cbn [app]. rewrite (ins_mid e v A B), !concat_mid. cbn [concat]. rewrite Ee, ins_app_lt by assumption. now rewrite !app_assoc.
      - assert (B1 : agt k (keys e2)) by (apply agt_in; intros y Hy; specialize (K2 y Hy); lia).
        assert (G1 : get k e1 = None) by (rewrite <- (get_app_gt e1 B1), <- Ee; exact Ho).
        destruct (@put_phase s1 ids1 (C1 ++ e1 :: e2 :: C2) ch1 J1 p (new :: J2) C1 e1 (e2 :: C2) k v I1) as (c1 & q & Ec1 & Eq & X & HQ); auto.
        + cbn [concat]. rewrite keys_app. apply Forall_app. split; assumption.
        + exists p. do 3 eexists. split; [reflexivity|]. split; [exact Ec1|]. split; [exact Eq|]. split; [exact X|]. split; [|exact HQ].
          rewrite (ins_mid e v A B), !concat_mid. cbn [concat]. rewrite Ee, ins_app_gt by assumption. now rewrite !app_assoc. }
    destruct PUT as (tgt & bl2 & c1 & q & Et & Ec1 & Eq & (s3 & E3 & I3 & Ln3 & Hh3 & FW3) & EC2 & HQ).
    rewrite Et. cbn [bind]. destruct (nc_some Ec1) as (y & Ey & Hy). unfold wnode_at. rewrite Ey. cbn [bind of_opt]. rewrite Hy, Eq. cbn [bind fst snd].
    rewrite w_exec_app, Es1. cbn [bind]. rewrite E3. cbn [bind].
    set (h := w_level r). assert (Hh : 1 <= h < M) by (unfold h, w_level; destruct (Nat.eqb_spec r 0); lia).
    pose proof (w_ht I) as HT.
    assert (exists u', (if wheight s <? h then for_up (S (wheight s)) (h - S (wheight s)) (fun i u => of_opt (lset u i (Some 0))) u else Ok u) = Ok u' /\
      forall j, j < h -> exists q, nth_error u' j = Some (Some q) /\ (q = 0 \/ In q (ch j))) as (u' & Eu' & HU').
    { destruct (Nat.ltb_spec (wheight s) h).
      - destruct (@upd_head (h - S (wheight s)) (S (wheight s)) u) as (u' & E & N'); [lia|]. exists u'. split; [assumption|].
        intros j Hj. rewrite N'. destruct (Nat.leb_spec (S (wheight s)) j); destruct (Nat.ltb_spec j (S (wheight s) + (h - S (wheight s)))); try lia; cbn [andb].
        + exists 0. auto.
        + apply HU. lia.
      - exists u. split; [reflexivity|]. intros j Hj. apply HU. lia. }
    rewrite Eu'. cbn [bind]. rewrite FW3, EF. cbn [bind of_opt].
    (* counter, height and level *)
    set (s4 := WList (wnodes s3) (wheight s3) (S (wcount s3))).
    assert (I4 : winv s4 ids1 bl2 ch1) by (apply winv_fwd with s3 ch1; auto; apply I3).
    set (G := if wheight s <? h then [WHeight h] else []).
    set (s5 := WList (wnodes s3) (Nat.max (wheight s) h) (S (wcount s3))).
    assert (I5 : winv s5 ids1 bl2 ch1) by (apply winv_fwd with s3 ch1; auto; try apply I3; lia).
    assert (EG5 : w_exec s4 G = Ok s5 /\ length G <= 1).
    { unfold G, s5, s4. destruct (Nat.ltb_spec (wheight s) h); cbn [w_exec w_step bind length wnodes wcount wheight]; (split; [|lia]).
      - now rewrite Nat.max_r by lia.
      - rewrite Nat.max_l by lia. do 2 f_equal. rewrite Hh3, Hh1. reflexivity. }
    destruct EG5 as [EG5 LG].
    assert (Bn : new < length (wnodes s5)). { cbn [s5 wnodes]. rewrite Ln3. apply (id_bound I1). unfold ids1. apply in_or_app. right. right. now left. }
    destruct (level_step h I5 Bn) as (s6 & E6 & I6).
    assert (NI : ~ In new ids). { intros X. apply (id_bound I) in X. unfold new in X. lia. }
    destruct (@link_phase u' new (h - 1) 1 s6 ids1 bl2 ch1 I6) as (links & EL & HL); try lia.
    { unfold ch1. cbn. unfold ids1. apply in_or_app. right. right. now left. }
    { intros j Hj X. unfold ch1 in X. destruct (Nat.eqb_spec j 0); [lia|]. apply (ch_ids I) in X. contradiction. }
    { intros j Hj. unfold ch1. destruct (Nat.eqb_spec j 0); [lia|]. apply HU'. lia. }
    rewrite EL. cbn [bind]. eexists true, _. split; [reflexivity|]. split; [rewrite EG; tauto|].
    set (tailp := WCount :: G ++ WLevel new h :: links).
    (* every prefix of the stores after the new entry is in place *)
    assert (TAIL : forall m, exists s' ch', w_exec s3 (firstn m tailp) = Ok s' /\ winv s' ids1 bl2 ch').
    { intros m. unfold tailp. destruct m as [|m]; [exists s3, ch1; auto|]. cbn [firstn w_exec w_step bind]. fold s4. rewrite firstn_app, w_exec_app.
      destruct (Nat.leb_spec (length G) m) as [Gm|Gm].
      2:{ assert (m = 0) as -> by lia. cbn [firstn w_exec bind]. exists s4, ch1. auto. }
      rewrite (firstn_all2 G) by assumption. rewrite EG5. cbn [bind]. destruct (m - length G) as [|m']; [exists s5, ch1; auto|].
      cbn [firstn w_exec]. rewrite E6. cbn [bind]. apply HL. }
    assert (I0 : concat (C1 ++ e1 :: e2 :: C2) = concat bl).
    { rewrite Eb, !concat_mid. cbn [concat]. rewrite Ee. now rewrite <- !app_assoc. }
    split.
    + destruct (TAIL (length tailp)) as (s' & ch' & E' & I'). rewrite firstn_all in E'. exists s', ids1, bl2, ch'. splits; auto.
      rewrite <- app_assoc, w_exec_app, Es1. cbn [bind]. rewrite w_exec_app, E3. cbn [bind]. exact E'.
    + intros m Hm. fold G. fold tailp. rewrite <- app_assoc, firstn_app, w_exec_app.
      assert (CASES : m <= 1 \/ 6 <= m).
      { destruct Hm as [Hm|Hm]; [|exact Hm]. exfalso. unfold w_split in Eqs.
        destruct qs as [|q0 qs]; [cbn in Lqs; lia|]. revert Eqs. clear -Hm.
        repeat match goal with |- bind ?x _ = _ -> _ => destruct x; cbn [bind]; try discriminate end.
        intros [= _ <- _]. eapply Hm. left. reflexivity. }
      destruct CASES as [Hm1|Hm6].
      * destruct m as [|[|m]]; [| |lia].
        -- cbn [firstn w_exec bind Nat.sub]. exists s. split; [reflexivity|]. left. auto.
        -- rewrite E2. cbn [bind]. rewrite Lqs. cbn [Nat.sub firstn w_exec]. exists s2. split; [reflexivity|]. eapply oldnew_old; eauto.
      * rewrite (firstn_all2 qs) by lia. rewrite Es1. cbn [bind]. rewrite firstn_app, w_exec_app.
        assert (ON : forall s', oldnew s1 s' k v -> oldnew s s' k v).
        { intros s' [X|X]; [left|right]; intros z Hz; rewrite X by assumption; rewrite (w_search_ok I), (w_search_ok I1), I0; reflexivity. }
        destruct (Nat.leb_spec (length q) (m - length qs)) as [Lq|Lq].
        -- rewrite (firstn_all2 q) by assumption. rewrite E3. cbn [bind]. destruct (TAIL (m - length qs - length q)) as (s' & ch' & E' & I').
           exists s'. split; [exact E'|]. eapply oldnew_new; eauto.
        -- replace (m - length qs - length q) with 0 by lia. cbn [firstn]. destruct (HQ (m - length qs)) as (s' & E' & O'). exists s'. rewrite E'. cbn [bind w_exec]. auto.
Qed.
End WoI.
