(** The skip list benchmarks. *)
From Verif Require Import Base ArrLemmas MapSpec SortedList SearchModel RankModel BitmapModel BitmapProofs ULeafModel ULeafProofs
  SlotLemmas FLeafModel FLeafProofs SkipSpec SkipProofs SkipMain WoModel WoNode WoProofs WoInsert WoMain BenchSModel.
From Coq Require Import Permutation.
Open Scope nat_scope.

Section BS.
Variables (V : Type) (t : ktype) (N M : nat) (f : Z -> V) (g : Z -> nat).
Hypothesis HN : 2 <= N.
Hypothesis HM : 2 <= M.
Hypothesis Ht : (1 <= kt_bits t <= 64)%Z.
Notation winv := (@winv V t N M).
Implicit Types (s : wlist V).

(** An insert into a list of one node with room. *)
Lemma insert_one s e ch k v r : winv s [1] [e] ch -> get k e = None -> length e < N -> okkey t k ->
  exists s', w_insert t N M s k v r = Ok (s', true) /\ winv s' [1] [ins k v e] ch /\ length (wnodes s') = length (wnodes s).
Proof.
  intros I G L Kk. destruct (target HN Ht k I HM) as (u & n & p & nx & J1 & J2 & C1 & e' & C2 & Eu & Lu & HU & EN & EP & Ei & Eb & F1 & Hp & F2 & A & B).
  destruct J1 as [|j J1]; [|destruct J1; discriminate]. cbn [app] in Ei. injection Ei as <- <-. inversion F1; subst C1. inversion F2; subst C2. cbn [app] in Eb. injection Eb as <-.
  unfold w_insert, w_insert_stores. rewrite Eu. cbn [bind]. rewrite EN. cbn [bind]. rewrite <- EP.
  pose proof Hp as (c & Ec & R). destruct (nc_some Ec) as (x & Ex & Hx). unfold wnode_at at 1. rewrite Ex. cbn [bind of_opt]. rewrite Hx.
  pose proof R as (RS & RK & (sl & RP & RR) & Rmn & Rmx).
  destruct (w_find_get k RR RP RS) as (o & Eo & Ho). rewrite Eo. cbn [bind]. destruct o as [i|].
  { destruct Ho as (w & _ & X). congruence. }
  unfold w_insert_in, wnode_at at 1. rewrite Ex. cbn [bind of_opt]. rewrite Hx.
  destruct (@full_ok V t N M HN Ht c e R) as (b & Efull & Le & Hfull). rewrite Efull. cbn [bind].
  destruct b; [exfalso; pose proof (proj1 Hfull eq_refl); lia|].
  destruct (@put_phase V t N M s [1] [e] ch [] 1 [] [] e [] k v I eq_refl eq_refl F1 Hp F2 A B Ho L Kk) as (c0 & q & Ec0 & Eq & (s' & Es & I' & Ln & _) & _).
  rewrite Ec in Ec0. injection Ec0 as <-. rewrite Eq. cbn [bind fst snd]. rewrite Es. cbn [bind]. exists s'. auto.
Qed.

Lemma fill_one : forall ks s e ch, winv s [1] [e] ch -> NoDup ks -> (forall k, In k ks -> get k e = None) -> length e + length ks <= N -> Forall (okkey t) ks ->
  exists s' e', w_run t N M s (map (fun k => (k, f k, g k)) ks) = Ok s' /\ winv s' [1] [e'] ch /\ length (wnodes s') = length (wnodes s) /\
    length e' = length e + length ks /\ forall k, get k e' = if in_dec Z.eq_dec k ks then Some (f k) else get k e.
Proof.
  induction ks as [|k ks IH]; intros s e ch I ND HG L KK; cbn [map w_run].
  - exists s, e. cbn [length]. splits; auto.
  - inversion ND as [|? ? NI ND']; subst. inversion KK as [|? ? Kk KK']; subst. cbn [length] in L.
    assert (G : get k e = None) by (apply HG; now left).
    destruct (@insert_one s e ch k (f k) (g k) I G ltac:(lia) Kk) as (s1 & E1 & I1 & L1). rewrite E1. cbn [bind fst].
    assert (SE : sorted e) by (pose proof (w_srt I) as X; cbn [concat] in X; now rewrite app_nil_r in X).
    assert (LE : length (ins k (f k) e) = S (length e)).
    { rewrite (Permutation_length (ins_new_perm (f k) SE (proj1 (get_none k SE) G))). reflexivity. }
    destruct (IH s1 (ins k (f k) e) ch I1 ND') as (s2 & e2 & E2 & I2 & L2 & L3 & G2); auto.
    { intros k' Hk'. rewrite get_ins by assumption. destruct (Z.eqb_spec k' k) as [->|]; [contradiction|]. apply HG. now right. }
    { lia. }
    exists s2, e2. splits; auto; [congruence|cbn [length]; lia|].
    intros k'. rewrite G2. rewrite get_ins by assumption. cbn [in_dec]. destruct (in_dec Z.eq_dec k' ks) as [H|H], (Z.eqb_spec k' k) as [->|H']; 
      destruct (in_dec Z.eq_dec _ (k :: ks)) as [X|X]; cbn [In] in X; try tauto; try congruence; exfalso; destruct X; auto.
Qed.

(** The list that the benchmarks prepare: one node with the keys [ks]. *)
Lemma list_ok r0 ks : r0 < M -> NoDup ks -> length ks <= N -> Forall (okkey t) ks ->
  exists s x e ch, sb_list t N M f g r0 ks = Ok s /\ winv s [1] [e] ch /\ length (wnodes s) = 2 /\ nth_error (wnodes s) 1 = Some x /\ sb_first s = Ok x /\
    crep t N (wc x) e /\ length e = length ks /\ forall k, get k e = if in_dec Z.eq_dec k ks then Some (f k) else None.
Proof.
  intros Hr ND L KK. destruct (@new_ok V t N M HN HM Ht r0 Hr) as (s0 & ch & E0 & I0 & _). unfold sb_list. rewrite E0. cbn [bind].
  assert (L0 : length (wnodes s0) = 2).
  { unfold w_new in E0. destruct (for_up _ _ _ _) in E0; cbn [bind] in E0; try discriminate. injection E0 as <-. reflexivity. }
  destruct (@fill_one ks s0 [] ch I0 ND) as (s & e & E & I & Ls & Le & G); auto.
  pose proof (w_blk I) as FB. inversion FB as [|? ? ? ? (c & Ec & R) _]; subst. destruct (nc_some Ec) as (x & Ex & Hx).
  exists s, x, e, ch. splits; auto; [congruence| |now rewrite Hx].
  assert (C : wchain (nfw (wnodes s) 0) 0 (ch 0)) by (apply (w_chain I); lia). rewrite (w_ch0 I) in C. cbn in C. destruct C as [C _].
  unfold sb_first. unfold nfw in C. rewrite C. cbn [bind of_opt]. unfold wnode_at. rewrite Ex. reflexivity.
Qed.

(** The stores of an insertion proper touch one node. *)
Definition at_node (p : nat) (a : wst V) : Prop :=
  match a with WBits q _ | WSlot q _ _ _ | WMin q _ | WMax q _ => q = p | _ => False end.
Lemma put_at c p k v q : w_put N c p k v = Ok q -> Forall (at_node p) q.
Proof.
  unfold w_put. destruct (getFreeZero (wb c)) as [sl| |]; cbn [bind]; try discriminate. destruct (bm_set N (wb c) sl true) as [b| |]; cbn [bind]; try discriminate.
  intros [= <-]. repeat constructor. destruct (k <? wmin c)%Z, (k >? wmax c)%Z; repeat constructor.
Qed.
Definition others s s' (p : nat) : Prop :=
  length (wnodes s') = length (wnodes s) /\ wheight s' = wheight s /\ wcount s' = wcount s /\
  forall b, b <> p -> nth_error (wnodes s') b = nth_error (wnodes s) b.
Lemma cell_others s p h s' : on_nodes s (set_cell (wnodes s) p h) = Ok s' -> others s s' p.
Proof.
  unfold on_nodes, set_cell. destruct (wnode_at (wnodes s) p) as [x| |]; cbn [bind]; try discriminate. destruct (h (wc x)) as [c| |]; cbn [bind]; try discriminate.
  destruct (lset (wnodes s) p (WNode c (wlev x) (wfwd x))) as [ns|] eqn:E; cbn [bind of_opt]; try discriminate. intros [= <-]. unfold others. cbn [wnodes wheight wcount].
  splits; auto; [apply (lset_length E)|]. intros b Hb. rewrite (lset_nth b E). now destruct (Nat.eqb_spec b p).
Qed.
Lemma exec_others p : forall q s s', Forall (at_node p) q -> w_exec s q = Ok s' -> others s s' p.
Proof.
  induction q as [|a q IH]; intros s s' F E; cbn [w_exec] in E.
  - injection E as <-. unfold others. auto.
  - inversion F as [|? ? Fa F']; subst. destruct (w_step s a) as [s1| |] eqn:E1; cbn [bind] in E; try discriminate.
    assert (O1 : others s s1 p).
    { destruct a; cbn [at_node] in Fa; try contradiction; subst; cbn [w_step] in E1; eapply cell_others; exact E1. }
    destruct O1 as (A1 & A2 & A3 & A4). destruct (IH s1 s' F' E) as (B1 & B2 & B3 & B4). unfold others. splits; try congruence.
    intros b Hb. now rewrite B4, A4.
Qed.

Lemma nth_ext_eq {A} : forall (l m : list A), (forall b, nth_error l b = nth_error m b) -> l = m.
Proof.
  induction l as [|a l IH]; intros [|b m] H; auto; try (specialize (H 0); discriminate).
  pose proof (H 0) as H0. injection H0 as ->. f_equal. apply IH. intros i. exact (H (S i)).
Qed.

(** One measured insert into a copy, and the reset. *)
Lemma round_ok s x e i T : nth_error (wnodes s) (2 + i) = Some x -> nth_error (wnodes s) 1 = Some x -> wfwd_at (wnodes s) 0 0 = Ok (Some 1) ->
  crep t N (wc x) e -> length e < N -> get (Z.of_nat T) e = None -> kt_in t (Z.of_nat T) ->
  exists s1 y, sb_measure t N M f s i T = Ok (false, s1) /\ others s s1 (2 + i) /\ nth_error (wnodes s1) (2 + i) = Some y /\
    crep t N (wc y) (ins (Z.of_nat T) (f (Z.of_nat T)) e) /\ sb_reset s1 i = Ok s.
Proof.
  intros Ei E1 E0 R L G K. unfold sb_measure, w_insert_in, wnode_at. rewrite Ei. cbn [bind of_opt].
  destruct (@full_ok V t N M HN Ht (wc x) e R) as (b & Efull & Le & Hfull). rewrite Efull. cbn [bind].
  destruct b; [exfalso; pose proof (proj1 Hfull eq_refl); lia|].
  destruct (@w_put_ok V t N M (wc x) e (2 + i) _ (f (Z.of_nat T)) R K G L) as (q & Eq & HQ). rewrite Eq. cbn [bind fst snd].
  assert (Ec : nc (wnodes s) (2 + i) = Some (wc x)) by (unfold nc; now rewrite Ei).
  destruct (HQ s Ec (length q)) as (s1 & c' & Es & S & H1 & _). rewrite firstn_all in Es. rewrite Es. cbn [bind].
  pose proof (exec_others (put_at Eq) Es) as O. destruct (nc_some (same_nc S)) as (y & Ey & Hy).
  exists s1, y. splits; auto; [rewrite Hy; auto|].
  pose proof O as (O1 & O2 & O3 & O4). unfold sb_reset, sb_first.
  assert (F0 : wfwd_at (wnodes s1) 0 0 = Ok (Some 1)).
  { unfold wfwd_at, wnode_at in *. rewrite O4 by lia. exact E0. }
  rewrite F0. cbn [bind of_opt]. unfold wnode_at. rewrite O4 by lia. rewrite E1. cbn [bind of_opt].
  destruct (@lset_some _ (wnodes s1) (2 + i) x) as (ns & En); [apply nth_error_Some; congruence|]. rewrite En. cbn [bind of_opt].
  rewrite O2, O3. assert (ns = wnodes s) as ->; [|now destruct s].
  apply nth_ext_eq. intros b. rewrite (lset_nth b En). destruct (Nat.eqb_spec b (2 + i)) as [->|]; [now rewrite Ei|auto].
Qed.

Definition measured s (T : nat) (i : nat) (m : bool * wlist V) : Prop :=
  fst m = false /\ others s (snd m) (2 + i) /\ exists y, nth_error (wnodes (snd m)) (2 + i) = Some y /\ bm_all N (wb (wc y)) = Ok true /\
    forall k, w_search_in N (wc y) k = Ok (if (1 <=? k) && (k <=? Z.of_nat N) then Some (f k) else None)%Z.

Lemma loop_in a b k : In k (sb_loop a b) <-> (Z.of_nat a <= k <= Z.of_nat b)%Z /\ a <= b.
Proof.
  unfold sb_loop. rewrite in_map_iff. split.
  - intros (x & <- & H). apply in_seq in H. lia.
  - intros [H L]. exists (Z.to_nat k). split; [lia|]. apply in_seq. lia.
Qed.
Lemma loop_nodup a b : NoDup (sb_loop a b).
Proof. unfold sb_loop. apply FinFun.Injective_map_NoDup; [intros x y; lia|apply seq_NoDup]. Qed.
Lemma loop_len a b : length (sb_loop a b) = b + 1 - a.
Proof. unfold sb_loop. now rewrite map_length, seq_length. Qed.

Lemma nodup_app_intro {A} (a b : list A) : NoDup a -> NoDup b -> (forall x, In x a -> In x b -> False) -> NoDup (a ++ b).
Proof.
  induction a as [|x a IH]; intros Ha Hb H; cbn; auto. inversion Ha as [|? ? NI Ha']; subst. constructor.
  - rewrite in_app_iff. intros [X|X]; [contradiction|]. apply (H x); [now left|assumption].
  - apply IH; auto. intros y Hy. apply H. now right.
Qed.

Definition a_case (T : nat) : Prop := T = 1 \/ T = N \/ T = (N + 1) / 2.
Lemma prepare_in T k : 3 <= N -> a_case T -> In k (sb_prepare N T) <-> (1 <= k <= Z.of_nat N /\ k <> Z.of_nat T)%Z.
Proof.
  intros H3 HT. unfold sb_prepare. destruct (Nat.eqb_spec T 1); [rewrite loop_in; lia|]. destruct (Nat.eqb_spec T N); [rewrite loop_in; lia|].
  destruct (Nat.eqb_spec T ((N + 1) / 2)); [|destruct HT as [|[|]]; contradiction]. rewrite in_app_iff, !loop_in. lia.
Qed.
Lemma prepare_len T : 3 <= N -> length (sb_prepare N T) = if (T =? 1) || (T =? N) || (T =? (N + 1) / 2) then N - 1 else 0.
Proof.
  intros H3. unfold sb_prepare. destruct (Nat.eqb_spec T 1); [rewrite loop_len; cbn [orb]; lia|]. destruct (Nat.eqb_spec T N); [rewrite loop_len; cbn [orb]; lia|].
  destruct (Nat.eqb_spec T ((N + 1) / 2)); [|reflexivity]. rewrite app_length, !loop_len. cbn [orb]. lia.
Qed.
Lemma prepare_nodup T : NoDup (sb_prepare N T).
Proof.
  unfold sb_prepare. destruct (T =? 1); [apply loop_nodup|]. destruct (T =? N); [apply loop_nodup|]. destruct (T =? (N + 1) / 2); [|constructor].
  apply nodup_app_intro; try apply loop_nodup. intros x A B. apply loop_in in A, B. lia.
Qed.

Lemma ok_keys ks : kt_in t (Z.of_nat N) -> (forall k, In k ks -> 1 <= k <= Z.of_nat N)%Z -> Forall (okkey t) ks.
Proof.
  intros [_ K] H. apply Forall_forall. intros k Hk. specialize (H k Hk). unfold okkey, kt_in. split; [split; [|lia]|lia].
  transitivity 0%Z; [|lia]. unfold kt_min. destruct (kt_signed t); [|lia]. assert (0 <= 2 ^ (kt_bits t - 1))%Z by (apply Z.pow_nonneg; lia). lia.
Qed.

Lemma copies_at s x n i : nth_error (wnodes s ++ repeat x n) (2 + i) = Some x \/ ~ (length (wnodes s) = 2 /\ i < n).
Proof.
  destruct (Nat.eq_dec (length (wnodes s)) 2) as [E|E]; [|tauto]. destruct (Nat.lt_ge_cases i n) as [L|L]; [left|right; lia].
  rewrite nth_error_app2 by lia. replace (2 + i - length (wnodes s)) with i by lia. now apply nth_error_repeat.
Qed.

Lemma setup_ok r0 ks n : r0 < M -> NoDup ks -> length ks <= N -> Forall (okkey t) ks ->
  exists s x e, (do s <- sb_list t N M f g r0 ks; sb_copies s n) = Ok s /\ length (wnodes s) = 2 + n /\ (forall i, i < n -> nth_error (wnodes s) (2 + i) = Some x) /\
    nth_error (wnodes s) 1 = Some x /\ wfwd_at (wnodes s) 0 0 = Ok (Some 1) /\ crep t N (wc x) e /\ length e = length ks /\
    forall k, get k e = if in_dec Z.eq_dec k ks then Some (f k) else None.
Proof.
  intros Hr ND L KK. destruct (@list_ok r0 ks Hr ND L KK) as (s & x & e & ch & E & I & Ln & E1 & EF & R & Le & G).
  exists (WList (wnodes s ++ repeat x n) (wheight s) (wcount s)), x, e. rewrite E. cbn [bind]. unfold sb_copies. rewrite EF. cbn [bind wnodes].
  assert (C : wchain (nfw (wnodes s) 0) 0 (ch 0)) by (apply (w_chain I); lia). rewrite (w_ch0 I) in C. cbn in C. destruct C as [C _]. unfold nfw in C.
  splits; auto.
  - rewrite app_length, repeat_length. lia.
  - intros i Hi. destruct (@copies_at s x n i) as [X|X]; tauto.
  - rewrite nth_error_app1 by lia. assumption.
  - unfold wfwd_at, wnode_at in *. rewrite nth_error_app1 by lia. exact C.
Qed.

Theorem insert_rounds r0 n T : 3 <= N -> r0 < M -> kt_in t (Z.of_nat N) -> a_case T ->
  exists s, (do s <- sb_list t N M f g r0 (sb_prepare N T); sb_copies s n) = Ok s /\ length (wnodes s) = 2 + n /\
    forall picks, Forall (fun i => i < n) picks -> exists ms, sb_rounds t N M f s T picks = Ok (s, ms) /\ Forall2 (measured s T) picks ms.
Proof.
  intros H3 Hr K HT.
  assert (KP : Forall (okkey t) (sb_prepare N T)) by (apply ok_keys; [assumption|]; intros k Hk; apply prepare_in in Hk; auto; lia).
  pose proof (@prepare_len T H3) as PL.
  assert (PL' : length (sb_prepare N T) = N - 1).
  { rewrite PL. destruct HT as [->|[->| ->]]; rewrite Nat.eqb_refl, ?orb_true_r; reflexivity. }
  destruct (@setup_ok r0 (sb_prepare N T) n Hr (prepare_nodup T) ltac:(lia) KP) as (s & x & e & E & Ln & EX & E1 & E0 & R & Le & G).
  exists s. split; [exact E|]. split; [exact Ln|].
  assert (T1 : 1 <= T <= N) by (destruct HT as [->|[->| ->]]; lia).
  assert (KT : kt_in t (Z.of_nat T)).
  { assert (X : Forall (okkey t) [Z.of_nat T]) by (apply ok_keys; [assumption|]; intros k [<-|[]]; lia). apply Forall_inv in X. apply X. }
  assert (GT : get (Z.of_nat T) e = None) by (rewrite G; destruct (in_dec _ _ _) as [X|X]; [|reflexivity]; apply prepare_in in X; auto; lia).
  induction picks as [|i picks IH]; intros F; cbn [sb_rounds].
  - exists []. split; [reflexivity|constructor].
  - inversion F as [|? ? Hi F']; subst.
    destruct (@round_ok s x e i T (EX i Hi) E1 E0 R ltac:(lia) GT KT) as (s1 & y & Em & O & Ey & Ry & ER). rewrite Em. cbn [bind snd]. rewrite ER. cbn [bind].
    destruct (IH F') as (ms & -> & FM). cbn [bind fst snd]. eexists. split; [reflexivity|]. constructor; [|assumption].
    unfold measured. cbn [fst snd]. splits; auto. exists y. splits; auto.
    + destruct (@full_ok V t N M HN Ht (wc y) _ Ry) as (b & Eb & _ & Hb). rewrite Eb. f_equal. apply Hb.
      pose proof R as (RS & _). rewrite (Permutation_length (ins_new_perm (f (Z.of_nat T)) RS (proj1 (get_none _ RS) GT))). cbn [length]. lia.
    + intros k. rewrite (w_search_srep k (crep_srep Ry)). f_equal. pose proof R as (RS & _). rewrite get_ins by exact RS. rewrite G.
      destruct (Z.eqb_spec k (Z.of_nat T)) as [->|NE].
      * destruct (Z.leb_spec 1 (Z.of_nat T)), (Z.leb_spec (Z.of_nat T) (Z.of_nat N)); try lia. reflexivity.
      * destruct (in_dec Z.eq_dec k (sb_prepare N T)) as [X|X]; rewrite prepare_in in X by auto.
        -- destruct (Z.leb_spec 1 k), (Z.leb_spec k (Z.of_nat N)); try lia. reflexivity.
        -- destruct (Z.leb_spec 1 k), (Z.leb_spec k (Z.of_nat N)); cbn [andb]; try reflexivity. exfalso. apply X. lia.
Qed.

Theorem get_rounds r0 n : r0 < M -> kt_in t (Z.of_nat N) ->
  exists s, (do s <- sb_list t N M f g r0 (sb_fill N); sb_copies s n) = Ok s /\ length (wnodes s) = 2 + n /\
    forall i T, i < n -> sb_get N s i T = Ok (if (1 <=? T) && (T <=? N) then Some (f (Z.of_nat T)) else None).
Proof.
  intros Hr K.
  assert (FI : forall k, In k (sb_fill N) <-> (1 <= k <= Z.of_nat N)%Z).
  { intros k. unfold sb_fill. rewrite in_map_iff. split; [intros (i & <- & H); apply in_seq in H; lia|].
    intros H. exists (Z.to_nat k - 1). split; [lia|]. apply in_seq. lia. }
  assert (ND : NoDup (sb_fill N)) by (unfold sb_fill; apply FinFun.Injective_map_NoDup; [intros a b; lia|apply seq_NoDup]).
  assert (LF : length (sb_fill N) = N) by (unfold sb_fill; now rewrite map_length, seq_length).
  destruct (@setup_ok r0 (sb_fill N) n Hr ND ltac:(lia)) as (s & x & e & E & Ln & EX & E1 & E0 & R & Le & G).
  { apply ok_keys; [assumption|]. intros k. now rewrite FI. }
  exists s. split; [exact E|]. split; [exact Ln|]. intros i T Hi. unfold sb_get, wnode_at. rewrite (EX i Hi). cbn [bind of_opt].
  rewrite (w_search_srep _ (crep_srep R)), G. f_equal. destruct (in_dec Z.eq_dec (Z.of_nat T) (sb_fill N)) as [X|X]; rewrite FI in X;
    destruct (Nat.leb_spec 1 T), (Nat.leb_spec T N); cbn [andb]; try reflexivity; lia.
Qed.
End BS.
