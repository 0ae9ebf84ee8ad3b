(** Correctness of the simple skip list, with and without power failures. *)
From Verif Require Import Base MapSpec SortedList SkipModel.
Open Scope nat_scope.

Lemma last_cons {A} (b : A) l a : last (b :: l) a = last l b.
Proof. revert b a. induction l as [|c l IH]; intros b a; [reflexivity|]. change (last (b :: c :: l) a) with (last (c :: l) a). rewrite !IH. reflexivity. Qed.
Lemma last_in {A} (l : list A) a : last l a = a \/ In (last l a) l.
Proof.
  revert a. induction l as [|b l IH]; intros a; [now left|]. rewrite last_cons. right.
  destruct (IH b) as [->|H]; [now left|now right].
Qed.
Lemma last_app_cons {A} (p : list A) b q a : last (p ++ b :: q) a = last q b.
Proof. revert a. induction p as [|c p IH]; intros a; [apply last_cons|]. cbn [app]. rewrite last_cons. apply IH. Qed.

Section Proofs.
Variables (V : Type) (maxl : nat) (minkey : Z) (v0 : V).
Notation snode := (snode V).
Notation slist := (slist V).
Implicit Types (ns : list snode) (es : list (Z * V)).

Definition ent ns (b : nat) : option (Z * V) := option_map (fun x => (nkey x, nval x)) (nth_error ns b).

Fixpoint chain ns (i a : nat) (l : list nat) : Prop :=
  match l with [] => fwd ns a i = Ok None | b :: r => fwd ns a i = Ok (Some b) /\ chain ns i b r end.

Lemma chain_tail ns i : forall p a b q, chain ns i a (p ++ b :: q) -> chain ns i b q.
Proof. induction p as [|c p IH]; intros a b q H; cbn in H; [apply H|]. destruct H as [_ H]. now apply IH in H. Qed.

Lemma chain_ext ns ns' i : forall l a, (forall b, In b (a :: l) -> fwd ns' b i = fwd ns b i) ->
  chain ns i a l -> chain ns' i a l.
Proof.
  induction l as [|b l IH]; intros a H C; cbn in *.
  - rewrite H; auto.
  - destruct C as [C1 C2]. split; [rewrite H; auto|]. apply IH; auto.
Qed.

Lemma chain_ins ns ns' i new B : forall A a, NoDup (a :: A ++ B) -> ~ In new (a :: A ++ B) ->
  chain ns i a (A ++ B) ->
  (forall b, b <> new -> b <> last A a -> fwd ns' b i = fwd ns b i) ->
  fwd ns' (last A a) i = Ok (Some new) -> fwd ns' new i = fwd ns (last A a) i ->
  chain ns' i a (A ++ new :: B).
Proof.
  induction A as [|c A IH]; intros a ND NI C HE H1 H2.
  - cbn [app last] in *. cbn [chain]. split; [assumption|].
    destruct B as [|b B]; cbn in C |- *; [now rewrite H2|]. destruct C as [C1 C2]. split; [now rewrite H2|].
    apply chain_ext with ns; [|assumption]. intros x Hx. apply HE.
    + intros ->. apply NI. now right.
    + intros ->. inversion ND; subst. contradiction.
  - rewrite last_cons in *. cbn [app chain] in *. destruct C as [C1 C2]. split.
    + rewrite HE; [assumption| |].
      * intros ->. apply NI. now left.
      * intros E. apply NoDup_cons_iff in ND as [N _]. apply N. rewrite E. destruct (last_in A c) as [X|X].
        -- rewrite X. now left.
        -- right. apply in_or_app. now left.
    + apply IH; auto; [now inversion ND|]. intros X. apply NI. now right.
Qed.

Lemma fwd_ok ns b i x : nth_error ns b = Some x -> Forall (fun x => length (nfwd x) = maxl) ns -> i < maxl ->
  exists o, fwd ns b i = Ok o.
Proof.
  intros E F H. unfold fwd, node_at. rewrite E. cbn. rewrite Forall_forall in F.
  specialize (F x (nth_error_In _ _ E)). destruct (nth_error (nfwd x) i) eqn:G; [cbn; eauto|].
  apply nth_error_None in G. lia.
Qed.

Lemma ent_node ns b k v : ent ns b = Some (k, v) -> exists x, nth_error ns b = Some x /\ nkey x = k /\ nval x = v.
Proof.
  unfold ent. destruct (nth_error ns b) as [x|]; [|discriminate]. cbn. intros [= <- <-]. eauto.
Qed.

(** The inner loop stops at the last node with a smaller key. *)
Lemma walk_ok ns i k : forall l1 fuel a l2, chain ns i a (l1 ++ l2) -> length l1 <= fuel ->
  (forall b, In b l1 -> exists x v, ent ns b = Some (x, v) /\ (x < k)%Z) ->
  (forall b, hd_error l2 = Some b -> exists x v, ent ns b = Some (x, v) /\ (k <= x)%Z) ->
  walk fuel ns i a k = Ok (last l1 a).
Proof.
  induction l1 as [|c l1 IH]; intros fuel a l2 C L H1 H2.
  - cbn [app] in C. destruct l2 as [|b l2]; cbn in C.
    + destruct fuel; cbn [walk]; rewrite C; reflexivity.
    + destruct C as [C _]. destruct (H2 b eq_refl) as (x & v & E & Hx). apply ent_node in E as (y & E & <- & _).
      destruct fuel; cbn [walk]; rewrite C; cbn [bind]; unfold node_at; rewrite E; cbn [bind of_opt];
        (destruct (Z.ltb_spec (nkey y) k); [lia|reflexivity]).
  - cbn [app chain] in C. destruct C as [C1 C2]. cbn [length] in L. destruct fuel as [|fuel]; [lia|].
    destruct (H1 c) as (x & v & E & Hx); [now left|]. apply ent_node in E as (y & E & <- & _).
    cbn [walk]. rewrite C1. cbn [bind]. unfold node_at at 1. rewrite E. cbn [bind of_opt].
    destruct (Z.ltb_spec (nkey y) k); [|lia]. rewrite last_cons. apply IH with l2; auto; [lia|].
    intros b Hb. apply H1. now right.
Qed.

(** ** The invariant: [ids] are the nodes on the lowest level, [lv] says on how many levels a node is linked. *)
Definition on (lv : nat -> nat) (i : nat) (ids : list nat) := filter (fun b => i <? lv b) ids.

Record inv (s : slist) (ids : list nat) es (lv : nat -> nat) : Prop := Inv {
  i_len : Forall (fun x => length (nfwd x) = maxl) (snodes s);
  i_head : exists v, ent (snodes s) 0 = Some (minkey, v);
  i_ent : map (ent (snodes s)) ids = map Some es;
  i_sorted : sorted es;
  i_nodup : NoDup (0 :: ids);
  i_chain : forall i, i < maxl -> chain (snodes s) i 0 (on lv i ids);
  i_lv : Forall (fun b => 1 <= lv b <= slevel s) ids;
  i_level : slevel s < maxl
}.

Lemma on_in lv i ids b : In b (on lv i ids) <-> In b ids /\ i < lv b.
Proof. unfold on. rewrite filter_In. rewrite Nat.ltb_lt. reflexivity. Qed.
Lemma on_app lv i a b : on lv i (a ++ b) = on lv i a ++ on lv i b.
Proof. apply filter_app. Qed.
Lemma on_zero lv ids : Forall (fun b => 1 <= lv b) ids -> on lv 0 ids = ids.
Proof.
  induction 1 as [|b ids H _ IH]; [reflexivity|]. unfold on in *. cbn [filter].
  destruct (Nat.ltb_spec 0 (lv b)); [|lia]. now rewrite IH.
Qed.
Lemma on_none lv i ids : Forall (fun b => lv b <= i) ids -> on lv i ids = [].
Proof.
  induction 1 as [|b ids H _ IH]; [reflexivity|]. unfold on in *. cbn [filter].
  destruct (Nat.ltb_spec i (lv b)); [lia|]. assumption.
Qed.
Lemma on_nodup lv i ids : NoDup ids -> NoDup (on lv i ids).
Proof. apply NoDup_filter. Qed.

Lemma ent_in ns ids es : map (ent ns) ids = map Some es -> forall b, In b ids -> exists e, ent ns b = Some e /\ In e es.
Proof.
  revert es. induction ids as [|c ids IH]; intros [|e es] E b Hb; try discriminate; [destruct Hb|].
  cbn in E. injection E as E1 E2. destruct Hb as [->|Hb].
  - exists e. split; [assumption|now left].
  - destruct (IH es E2 b Hb) as (e' & ? & ?). exists e'. split; [assumption|now right].
Qed.

Lemma ids_split ns : forall e1 ids e2, map (ent ns) ids = map Some (e1 ++ e2) ->
  exists I1 I2, ids = I1 ++ I2 /\ map (ent ns) I1 = map Some e1 /\ map (ent ns) I2 = map Some e2.
Proof.
  induction e1 as [|e e1 IH]; intros ids e2 E.
  - exists [], ids. auto.
  - destruct ids as [|b ids]; [discriminate|]. cbn in E. injection E as E1 E2.
    destruct (IH ids e2 E2) as (I1 & I2 & -> & A & B). exists (b :: I1), I2. splits; auto. cbn. now rewrite E1, A.
Qed.

Lemma ids_bound ns ids es : map (ent ns) ids = map Some es -> forall b, In b ids -> b < length ns.
Proof.
  intros E b Hb. destruct (ent_in E Hb) as (e & H & _). apply nth_error_Some. intros N. unfold ent in H. now rewrite N in H.
Qed.

Lemma short ns l : NoDup l -> (forall b, In b l -> b < length ns) -> length l <= length ns.
Proof.
  intros ND H. rewrite <- (seq_length (length ns) 0). apply NoDup_incl_length; [assumption|].
  intros b Hb. apply in_seq. specialize (H b Hb). lia.
Qed.

Section Descent.
Variables (s : slist) (ids : list nat) (es : list (Z * V)) (lv : nat -> nat) (k : Z).
Variables (I1 I2 : list nat) (e1 e2 : list (Z * V)).
Hypothesis H : inv s ids es lv.
Hypothesis Hi : ids = I1 ++ I2.
Hypothesis He : es = e1 ++ e2.
Hypothesis M1 : map (ent (snodes s)) I1 = map Some e1.
Hypothesis M2 : map (ent (snodes s)) I2 = map Some e2.
Hypothesis L1 : alt k (keys e1).
Hypothesis L2 : age k (keys e2).

Definition pred (i : nat) : nat := last (on lv i I1) 0.

Lemma I1_lt b : In b I1 -> exists x v, ent (snodes s) b = Some (x, v) /\ (x < k)%Z.
Proof.
  intros Hb. destruct (ent_in M1 Hb) as ((x & v) & E & HI). exists x, v. split; [assumption|].
  unfold alt in L1. rewrite Forall_forall in L1. apply L1. unfold keys. apply in_map_iff. exists (x, v). auto.
Qed.
Lemma I2_ge b : In b I2 -> exists x v, ent (snodes s) b = Some (x, v) /\ (k <= x)%Z.
Proof.
  intros Hb. destruct (ent_in M2 Hb) as ((x & v) & E & HI). exists x, v. split; [assumption|].
  unfold age in L2. rewrite Forall_forall in L2.
  cut (k <= x)%Z; [lia|]. apply L2. unfold keys. apply in_map_iff. exists (x, v). auto.
Qed.

Lemma step_ok i a : i < maxl -> a = 0 \/ In a (on lv i I1) ->
  walk (length (snodes s)) (snodes s) i a k = Ok (pred i).
Proof.
  intros Hl Ha. pose proof (i_chain H Hl) as C. rewrite Hi, on_app in C. unfold pred.
  assert (NDI : NoDup ids) by (pose proof (i_nodup H) as ND; now inversion ND).
  assert (W : forall l1 a, chain (snodes s) i a (l1 ++ on lv i I2) -> incl l1 (on lv i I1) -> NoDup l1 ->
    walk (length (snodes s)) (snodes s) i a k = Ok (last l1 a)).
  { intros l1 a0 C0 HI ND0. apply walk_ok with (on lv i I2); auto.
    - apply short; auto. intros b Hb. apply HI, on_in in Hb as [Hb _]. now apply (ids_bound M1).
    - intros b Hb. apply HI, on_in in Hb as [Hb _]. now apply I1_lt.
    - intros b Hb. destruct (on lv i I2) eqn:E; [discriminate|]. injection Hb as ->.
      apply I2_ge. apply (@on_in lv i I2 b). rewrite E. now left. }
  assert (ND1 : NoDup (on lv i I1)).
  { apply on_nodup. rewrite Hi in NDI. clear -NDI. induction I1; [constructor|]. inversion NDI; subst.
    constructor; auto. intros X. apply H1. apply in_or_app. now left. }
  destruct Ha as [->|Ha].
  - apply W; auto. apply incl_refl.
  - apply in_split in Ha as (p & q & E). rewrite E in *. rewrite <- app_assoc in C. cbn [app] in C.
    apply chain_tail in C. rewrite last_app_cons. apply W; auto.
    + intros b Hb. apply in_or_app. right. now right.
    + apply NoDup_remove_1 in ND1. clear -ND1. induction p; auto. inversion ND1; auto.
Qed.

Lemma pred_start i : pred (S i) = 0 \/ In (pred (S i)) (on lv i I1).
Proof.
  unfold pred. destruct (last_in (on lv (S i) I1) 0) as [->|X]; [now left|right].
  apply on_in in X as [X Y]. apply on_in. split; [assumption|lia].
Qed.

Lemma descend_ok : forall i a, i < maxl -> a = 0 \/ In a (on lv i I1) -> descend i (snodes s) a k = Ok (pred 0).
Proof.
  induction i as [|i IH]; intros a Hl Ha; cbn [descend]; rewrite step_ok by assumption; cbn [bind]; [reflexivity|].
  apply IH; [lia|]. apply pred_start.
Qed.

Lemma descend_upd_ok : forall i a u, i < maxl -> length u = maxl -> a = 0 \/ In a (on lv i I1) ->
  exists u', descend_upd i (snodes s) a k u = Ok (pred 0, u') /\ length u' = maxl /\
    forall j, nth_error u' j = if j <=? i then Some (Some (pred j)) else nth_error u j.
Proof.
  induction i as [|i IH]; intros a u Hl Hu Ha; cbn [descend_upd]; rewrite step_ok by assumption; cbn [bind].
  - destruct (@lset_some _ u 0 (Some (pred 0))) as (u' & E); [lia|]. rewrite E. cbn [bind of_opt].
    exists u'. splits; [reflexivity|now rewrite (lset_length E)|]. intros j. rewrite (lset_nth j E). destruct j; reflexivity.
  - destruct (@lset_some _ u (S i) (Some (pred (S i)))) as (u1 & E); [lia|]. rewrite E. cbn [bind of_opt].
    destruct (IH (pred (S i)) u1) as (u' & E' & Lu & N); [lia|now rewrite (lset_length E)|apply pred_start|].
    exists u'. splits; auto. intros j. rewrite N. rewrite (lset_nth j E).
    destruct (Nat.leb_spec j i); destruct (Nat.leb_spec j (S i)); try lia; auto.
    + destruct (Nat.eqb_spec j (S i)); [now subst|lia].
    + destruct (Nat.eqb_spec j (S i)); [lia|reflexivity].
Qed.

Lemma I1_lv : Forall (fun b => 1 <= lv b <= slevel s) I1.
Proof. pose proof (i_lv H) as F. rewrite Hi in F. apply Forall_app in F. tauto. Qed.
Lemma I2_lv : Forall (fun b => 1 <= lv b <= slevel s) I2.
Proof. pose proof (i_lv H) as F. rewrite Hi in F. apply Forall_app in F. tauto. Qed.

Lemma on0 : on lv 0 ids = ids.
Proof. apply on_zero. eapply Forall_impl; [|exact (i_lv H)]. cbn. lia. Qed.
Lemma pred0 : pred 0 = last I1 0.
Proof. unfold pred. rewrite on_zero; [reflexivity|]. eapply Forall_impl; [|exact I1_lv]. cbn. lia. Qed.

(** The node behind the last smaller one. *)
Lemma next_ok : fwd (snodes s) (pred 0) 0 = Ok (hd_error I2).
Proof.
  pose proof (i_level H) as HL. assert (C : chain (snodes s) 0 0 (on lv 0 ids)) by (apply (i_chain H); lia).
  rewrite on0, Hi in C. rewrite pred0. clear -C. revert C. generalize 0 at 2 3.
  induction I1 as [|b l IH]; intros a C; cbn [app] in *.
  - cbn [last]. destruct I2; cbn in *; tauto.
  - rewrite last_cons. cbn [chain] in C. apply IH. tauto.
Qed.
End Descent.

Lemma inv_split s ids es lv k : inv s ids es lv -> exists I1 I2 e1 e2, ids = I1 ++ I2 /\ es = e1 ++ e2 /\
  map (ent (snodes s)) I1 = map Some e1 /\ map (ent (snodes s)) I2 = map Some e2 /\ alt k (keys e1) /\ age k (keys e2).
Proof.
  intros H. destruct (@split_lt (keys es) k) as (a & b & E & A & B); [exact (i_sorted H)|].
  assert (exists e1 e2, es = e1 ++ e2 /\ keys e1 = a /\ keys e2 = b) as (e1 & e2 & -> & <- & <-).
  { exists (firstn (length a) es), (skipn (length a) es). rewrite firstn_skipn.
    assert (keys (firstn (length a) es) = firstn (length a) (keys es)) as -> by (unfold keys; now rewrite firstn_map).
    assert (keys (skipn (length a) es) = skipn (length a) (keys es)) as -> by (unfold keys; now rewrite skipn_map).
    rewrite E. rewrite firstn_app, Nat.sub_diag, firstn_all, skipn_app, Nat.sub_diag, skipn_all. cbn. now rewrite app_nil_r. }
  destruct (ids_split (i_ent H)) as (I1 & I2 & -> & M1 & M2). exists I1, I2, e1, e2. splits; auto.
Qed.

Theorem search_ok s ids es lv k : inv s ids es lv -> search s k = Ok (get k es).
Proof.
  intros H. destruct (inv_split k H) as (I1 & I2 & e1 & e2 & Hi & He & M1 & M2 & L1 & L2).
  unfold search. pose proof (i_level H) as HL.
  rewrite (@descend_ok s ids es lv k I1 I2 e1 e2) by (auto; now left). cbn [bind].
  rewrite (next_ok H Hi). cbn [bind].
  rewrite He, get_app_lt by assumption. destruct I2 as [|b I2]; destruct e2 as [|[x v] e2]; try discriminate; [reflexivity|].
  cbn [hd_error]. cbn in M2. injection M2 as E _. apply ent_node in E as (y & E & <- & <-).
  unfold node_at. rewrite E. cbn [bind of_opt get]. destruct (Z.eqb_spec (nkey y) k) as [|N]; [reflexivity|].
  symmetry. f_equal. apply get_none_gt.
  pose proof (i_sorted H) as S. unfold sorted in S. rewrite He, keys_app in S. apply ssorted_app in S as (_ & S & _).
  cbn [keys map fst] in S. apply ssorted_cons in S as [_ S].
  unfold age in L2. cbn in L2. apply Forall_inv in L2. unfold agt in *. eapply Forall_impl; [|exact S]. cbn in *. lia.
Qed.

(** ** Insert *)
Lemma st_exec_app (s : slist) a b : st_exec s (a ++ b) = do s' <- st_exec s a; st_exec s' b.
Proof. revert s. induction a as [|x a IH]; intros s; [reflexivity|]. cbn [app st_exec]. destruct (st_step s x); cbn [bind]; auto. Qed.

Lemma set_fwd_ok ns p i o : p < length ns -> Forall (fun x => length (nfwd x) = maxl) ns -> i < maxl ->
  exists ns', set_fwd ns p i o = Ok ns' /\ length ns' = length ns /\ Forall (fun x => length (nfwd x) = maxl) ns' /\
    (forall b, ent ns' b = ent ns b) /\
    (forall b j, fwd ns' b j = if (b =? p) && (j =? i) then Ok o else fwd ns b j).
Proof.
  intros Hp F Hi. destruct (nth_error ns p) as [x|] eqn:E; [|apply nth_error_None in E; lia].
  assert (Lx : length (nfwd x) = maxl) by (rewrite Forall_forall in F; apply F; now apply nth_error_In in E).
  unfold set_fwd, node_at. rewrite E. cbn [bind of_opt].
  destruct (@lset_some _ (nfwd x) i o) as (f & Ef); [lia|]. rewrite Ef. cbn [bind of_opt].
  destruct (@lset_some _ ns p (SNode (nkey x) (nval x) (nlev x) f) Hp) as (ns' & En). rewrite En. cbn [of_opt].
  exists ns'. splits; [reflexivity|now rewrite (lset_length En)| | |].
  - apply Forall_forall. intros y Hy. apply In_nth_error in Hy as (q & Hq). rewrite (lset_nth q En) in Hq.
    destruct (Nat.eqb_spec q p).
    + injection Hq as <-. cbn. now rewrite (lset_length Ef).
    + rewrite Forall_forall in F. apply F. now apply nth_error_In in Hq.
  - intros b. unfold ent. rewrite (lset_nth b En). destruct (Nat.eqb_spec b p) as [->|]; [|reflexivity]. now rewrite E.
  - intros b j. unfold fwd, node_at. rewrite (lset_nth b En). destruct (Nat.eqb_spec b p) as [->|]; [|reflexivity].
    cbn [bind of_opt nfwd andb]. rewrite (lset_nth j Ef). rewrite E. cbn [bind of_opt].
    destruct (Nat.eqb_spec j i); reflexivity.
Qed.

Lemma inv_setval s ids es lv k w v p I1 I2 e1 e2 : inv s ids es lv -> ids = I1 ++ p :: I2 -> es = e1 ++ (k, w) :: e2 ->
  map (ent (snodes s)) I1 = map Some e1 -> map (ent (snodes s)) (p :: I2) = map Some ((k, w) :: e2) ->
  exists s', st_step s (SetVal p v) = Ok s' /\ inv s' ids (e1 ++ (k, v) :: e2) lv /\ scount s' = scount s.
Proof.
  intros H Hi He M1 M2. cbn [map] in M2. injection M2 as E M2. apply ent_node in E as (x & E & Kx & Vx).
  unfold st_step, node_at. rewrite E. cbn [bind of_opt].
  assert (Hp : p < length (snodes s)) by (apply nth_error_Some; now rewrite E).
  destruct (@lset_some _ (snodes s) p (SNode (nkey x) v (nlev x) (nfwd x)) Hp) as (ns' & En). rewrite En. cbn [bind of_opt].
  exists (SList ns' (slevel s) (scount s)). splits; [reflexivity| |reflexivity].
  assert (NE : forall b, b <> p -> ent ns' b = ent (snodes s) b).
  { intros b Hb. unfold ent. rewrite (lset_nth b En). destruct (Nat.eqb_spec b p); [contradiction|reflexivity]. }
  assert (FE : forall b i, fwd ns' b i = fwd (snodes s) b i).
  { intros b i. unfold fwd, node_at. rewrite (lset_nth b En). destruct (Nat.eqb_spec b p) as [->|]; [now rewrite E|reflexivity]. }
  pose proof (i_nodup H) as ND. rewrite Hi in ND.
  assert (P0 : p <> 0) by (intros ->; inversion ND; apply H2; apply in_or_app; right; now left).
  assert (NDp : ~ In p (I1 ++ I2)) by (inversion ND; now apply NoDup_remove_2).
  constructor; cbn [snodes slevel].
  - apply Forall_forall. intros y Hy. apply In_nth_error in Hy as (q & Hq). rewrite (lset_nth q En) in Hq.
    pose proof (i_len H) as F. rewrite Forall_forall in F. destruct (Nat.eqb_spec q p).
    + injection Hq as <-. cbn. apply F. now apply nth_error_In in E.
    + apply F. now apply nth_error_In in Hq.
  - destruct (i_head H) as (u & Hu). exists u. rewrite NE; auto.
  - rewrite Hi. rewrite !map_app. cbn [map]. f_equal; [|f_equal].
    + rewrite <- M1. apply map_ext_in. intros b Hb. apply NE. intros ->. apply NDp. apply in_or_app. now left.
    + unfold ent. rewrite (lset_nth p En), Nat.eqb_refl. cbn. now rewrite Kx.
    + rewrite <- M2. apply map_ext_in. intros b Hb. apply NE. intros ->. apply NDp. apply in_or_app. now right.
  - pose proof (i_sorted H) as S. unfold sorted in *. rewrite He in S. rewrite keys_app in *. exact S.
  - exact (i_nodup H).
  - intros i Hl. apply chain_ext with (snodes s); [auto|exact (i_chain H Hl)].
  - exact (i_lv H).
  - exact (i_level H).
Qed.

Lemma inv_new s ids es lv x lev cnt : inv s ids es lv -> length (nfwd x) = maxl -> slevel s <= lev < maxl ->
  inv (SList (snodes s ++ [x]) lev cnt) ids es lv.
Proof.
  intros H Lx Hl.
  assert (NE : forall b, b < length (snodes s) -> nth_error (snodes s ++ [x]) b = nth_error (snodes s) b) by (intros; now rewrite nth_error_app1).
  destruct (i_head H) as (u & Hu).
  assert (B0 : 0 < length (snodes s)) by (apply nth_error_Some; unfold ent in Hu; destruct (nth_error (snodes s) 0); discriminate).
  pose proof (ids_bound (i_ent H)) as IB.
  constructor; cbn [snodes slevel].
  - apply Forall_app. split; [exact (i_len H)|auto].
  - exists u. unfold ent. now rewrite NE.
  - rewrite <- (i_ent H). apply map_ext_in. intros b Hb. unfold ent. now rewrite NE by auto.
  - exact (i_sorted H).
  - exact (i_nodup H).
  - intros i Hi. apply chain_ext with (snodes s); [|exact (i_chain H Hi)]. intros b Hb. unfold fwd, node_at. rewrite NE; [reflexivity|].
    destruct Hb as [<-|Hb]; [assumption|]. apply IB. now apply on_in in Hb.
  - eapply Forall_impl; [|exact (i_lv H)]. cbn. lia.
  - lia.
Qed.

Lemma inv_level s ids es lv lev cnt : inv s ids es lv -> slevel s <= lev < maxl -> inv (SList (snodes s) lev cnt) ids es lv.
Proof.
  intros H Hl. destruct H. constructor; cbn [snodes slevel]; auto; [|lia]. eapply Forall_impl; [|exact i_lv0]. cbn. lia.
Qed.

Section Link.
Variables (s : slist) (I1 I2 : list nat) (e1 e2 : list (Z * V)) (lv : nat -> nat) (k : Z) (v : V) (new : nat).
Hypothesis H : inv s (I1 ++ I2) (e1 ++ e2) lv.
Hypothesis M1 : map (ent (snodes s)) I1 = map Some e1.
Hypothesis M2 : map (ent (snodes s)) I2 = map Some e2.
Hypothesis L1 : alt k (keys e1).
Hypothesis L2 : agt k (keys e2).
Hypothesis Hnew : ent (snodes s) new = Some (k, v).
Hypothesis N0 : ~ In new (0 :: I1 ++ I2).

Definition mid ns (j : nat) : Prop :=
  length ns = length (snodes s) /\ Forall (fun x => length (nfwd x) = maxl) ns /\
  (forall b, ent ns b = ent (snodes s) b) /\
  forall i, i < maxl -> chain ns i 0 (on lv i I1 ++ (if i <? j then [new] else []) ++ on lv i I2).

Lemma mid0 : mid (snodes s) 0.
Proof.
  unfold mid. splits; auto; [exact (i_len H)|]. intros i Hi. cbn [app]. pose proof (i_chain H Hi) as C. now rewrite on_app in C.
Qed.

Lemma nodup_on i : NoDup (0 :: on lv i I1 ++ on lv i I2).
Proof.
  rewrite <- on_app. pose proof (i_nodup H) as ND. inversion ND; subst. constructor; [|now apply on_nodup].
  intros X. apply on_in in X. tauto.
Qed.

Lemma bound b : In b (0 :: I1 ++ I2) -> b < length (snodes s).
Proof.
  intros [<-|Hb]; [|now apply (ids_bound (i_ent H))]. destruct (i_head H) as (u & Hu). apply nth_error_Some.
  unfold ent in Hu. destruct (nth_error (snodes s) 0); discriminate.
Qed.

Lemma link_level ns j lev cnt : mid ns j -> j < maxl ->
  exists ns1 ns2, st_step (SList ns lev cnt) (FwdCopy new (pred lv I1 j) j) = Ok (SList ns1 lev cnt) /\ mid ns1 j /\
    st_step (SList ns1 lev cnt) (FwdSet (pred lv I1 j) j new) = Ok (SList ns2 lev cnt) /\ mid ns2 (S j).
Proof.
  intros (Ln & F & HE & C) Hj. set (p := pred lv I1 j).
  assert (Hp : In p (0 :: I1 ++ I2)).
  { unfold p, pred. destruct (last_in (on lv j I1) 0) as [->|X]; [now left|]. apply on_in in X. right. apply in_or_app. tauto. }
  assert (Np : new <> p) by (intros ->; contradiction).
  assert (Bp : p < length ns) by (rewrite Ln; now apply bound).
  assert (Bn : new < length ns).
  { rewrite Ln. apply nth_error_Some. unfold ent in Hnew. destruct (nth_error (snodes s) new); discriminate. }
  destruct (nth_error ns p) as [y|] eqn:Ey; [|apply nth_error_None in Ey; lia].
  destruct (fwd_ok Ey F Hj) as (o & Eo).
  destruct (@set_fwd_ok ns new j o Bn F Hj) as (ns1 & E1 & Ln1 & F1 & HE1 & HF1).
  destruct (@set_fwd_ok ns1 p j (Some new)) as (ns2 & E2 & Ln2 & F2 & HE2 & HF2); [lia|assumption|assumption|].
  exists ns1, ns2. unfold st_step. cbn [snodes slevel scount]. rewrite Eo. cbn [bind]. rewrite E1. cbn [bind]. rewrite E2. cbn [bind].
  assert (NI : forall i, ~ In new (0 :: on lv i I1 ++ on lv i I2)).
  { intros i X. apply N0. destruct X as [X|X]; [now left|right]. rewrite <- on_app in X. now apply on_in in X. }
  assert (C1 : forall i, i < maxl -> chain ns1 i 0 (on lv i I1 ++ (if i <? j then [new] else []) ++ on lv i I2)).
  { intros i Hi. apply chain_ext with ns; [|now apply C]. intros b Hb. rewrite HF1.
    destruct (Nat.eqb_spec b new) as [->|]; [|reflexivity]. destruct (Nat.eqb_spec i j) as [->|]; [|reflexivity].
    exfalso. rewrite Nat.ltb_irrefl in Hb. now apply (NI j). }
  splits; [reflexivity| |reflexivity|].
  - unfold mid. splits; auto; [lia|]. intros b. now rewrite HE1.
  - unfold mid. splits; auto; [lia|intros b; now rewrite HE2, HE1|]. intros i Hi.
    destruct (Nat.eqb_spec i j) as [->|Nij].
    + destruct (Nat.ltb_spec j (S j)); [|lia]. cbn [app]. specialize (C j Hj). rewrite Nat.ltb_irrefl in C. cbn [app] in C.
      apply chain_ins with ns; auto using nodup_on.
      * intros b B1 B2. rewrite HF2, HF1. rewrite (proj2 (Nat.eqb_neq b p)) by exact B2. rewrite (proj2 (Nat.eqb_neq b new)) by exact B1. reflexivity.
      * rewrite HF2. change (last (on lv j I1) 0) with p. now rewrite !Nat.eqb_refl.
      * change (last (on lv j I1) 0) with p. rewrite HF2, HF1. rewrite (proj2 (Nat.eqb_neq new p)) by exact Np. rewrite !Nat.eqb_refl. cbn [andb]. now rewrite Eo.
    + specialize (C1 i Hi). assert ((i <? S j) = (i <? j)) as -> by (destruct (Nat.ltb_spec i (S j)); destruct (Nat.ltb_spec i j); lia || reflexivity).
      apply chain_ext with ns1; [|exact C1]. intros b _. rewrite HF2. rewrite (proj2 (Nat.eqb_neq i j)) by exact Nij. now rewrite andb_false_r.
Qed.

Lemma link_all u : forall n j ns lev cnt, mid ns j -> j + n < maxl ->
  (forall i, i < j + n -> nth_error u i = Some (Some (pred lv I1 i))) ->
  exists p, link_stores V n j new u = Ok p /\ forall m, exists ns' j', st_exec (SList ns lev cnt) (firstn m p) = Ok (SList ns' lev cnt) /\
    mid ns' j' /\ j <= j' <= j + n /\ (length p <= m -> j' = j + n).
Proof.
  induction n as [|n IH]; intros j ns lev cnt Hm Hj Hu.
  - exists []. split; [reflexivity|]. intros m. exists ns, j. rewrite firstn_nil. splits; auto; lia.
  - cbn [link_stores]. rewrite Hu by lia. cbn [bind of_opt].
    destruct (link_level lev cnt Hm) as (ns1 & ns2 & E1 & Hm1 & E2 & Hm2); [lia|].
    destruct (IH (S j) ns2 lev cnt Hm2) as (p & Ep & Hp); [lia|intros; apply Hu; lia|].
    rewrite Ep. cbn [bind]. eexists. split; [reflexivity|]. intros [|[|m]].
    + exists ns, j. cbn [firstn st_exec length]. splits; auto; lia.
    + exists ns1, j. cbn [firstn st_exec length]. rewrite E1. cbn [bind]. splits; auto; lia.
    + destruct (Hp m) as (ns' & j' & E & Hm' & B & Hl). exists ns', j'. cbn [firstn st_exec length]. rewrite E1. cbn [bind]. rewrite E2. cbn [bind].
      splits; auto; lia.
Qed.

(** A partly linked list is a list again. *)
Lemma mid_inv ns j cnt : mid ns j -> j <= slevel s ->
  inv (SList ns (slevel s) cnt) (if j =? 0 then I1 ++ I2 else I1 ++ new :: I2) (if j =? 0 then e1 ++ e2 else e1 ++ (k, v) :: e2)
      (fun b => if b =? new then j else lv b).
Proof.
  intros (Ln & F & HE & C) Hj. set (lv' := fun b => if b =? new then j else lv b).
  assert (NI : ~ In new I1 /\ ~ In new I2).
  { split; intros X; apply N0; right; apply in_or_app; tauto. }
  assert (on_eq : forall i l, ~ In new l -> on lv' i l = on lv i l).
  { intros i l Hl. unfold on. apply filter_ext_in. intros b Hb. unfold lv'. destruct (Nat.eqb_spec b new) as [->|]; [contradiction|reflexivity]. }
  pose proof (i_lv H) as LV.
  constructor; cbn [snodes slevel].
  - assumption.
  - destruct (i_head H) as (u & Hu). exists u. now rewrite HE.
  - rewrite (map_ext _ _ HE). destruct (j =? 0); rewrite !map_app; [now rewrite M1, M2|]. cbn [map]. now rewrite M1, M2, Hnew.
  - pose proof (i_sorted H) as S. unfold sorted in *. destruct (j =? 0); [exact S|]. rewrite keys_app in *.
    apply ssorted_app in S as (S1 & S2 & S3). apply ssorted_app. splits; auto.
    + cbn [keys map fst]. apply ssorted_cons. split; auto.
    + intros x y Hx Hy. cbn [keys map fst] in Hy. unfold alt in L1. rewrite Forall_forall in L1. destruct Hy as [<-|Hy]; [now apply L1|now apply S3].
  - pose proof (i_nodup H) as ND. destruct (j =? 0); [exact ND|]. change (NoDup ((0 :: I1) ++ new :: I2)).
    apply NoDup_Add with (a := new) (l := (0 :: I1) ++ I2); [apply Add_app|]. split; [exact ND|exact N0].
  - intros i Hi. specialize (C i Hi). destruct (Nat.eqb_spec j 0) as [->|Nj].
    + rewrite on_eq by (intros X; apply in_app_or in X; tauto). rewrite on_app. exact C.
    + rewrite on_app. unfold on at 2. cbn [filter]. fold (on lv' i I2). rewrite !on_eq by tauto.
      assert (lv' new = j) as -> by (unfold lv'; now rewrite Nat.eqb_refl).
      destruct (i <? j); exact C.
  - assert (B : Forall (fun b => 1 <= lv' b <= slevel s) (I1 ++ I2)).
    { apply Forall_forall. intros b Hb. rewrite Forall_forall in LV. unfold lv'. destruct (Nat.eqb_spec b new) as [->|]; [|now apply LV].
      exfalso. apply in_app_or in Hb. tauto. }
    destruct (Nat.eqb_spec j 0) as [->|Nj]; [exact B|]. apply Forall_app in B as [B1 B2]. apply Forall_app. split; [assumption|].
    constructor; [|assumption]. unfold lv'. rewrite Nat.eqb_refl. lia.
  - exact (i_level H).
Qed.
End Link.

Lemma upd_head n : forall lo u, lo + n <= length u -> exists u',
  for_up lo n (fun i u => of_opt (lset u i (Some 0))) u = Ok u' /\
  forall i, nth_error u' i = if (lo <=? i) && (i <? lo + n) then Some (Some 0) else nth_error u i.
Proof.
  induction n as [|n IH]; intros lo u L; cbn [for_up].
  - exists u. split; [reflexivity|]. intros i. destruct (Nat.leb_spec lo i); destruct (Nat.ltb_spec i (lo + 0)); cbn; lia || reflexivity.
  - destruct (@lset_some _ u lo (Some 0)) as (u1 & E); [lia|]. rewrite E. cbn [bind of_opt].
    destruct (IH (S lo) u1) as (u' & E' & N); [rewrite (lset_length E); lia|]. exists u'. split; [assumption|].
    intros i. rewrite N, (lset_nth i E).
    destruct (Nat.leb_spec (S lo) i); destruct (Nat.ltb_spec i (S lo + n)); destruct (Nat.leb_spec lo i); destruct (Nat.ltb_spec i (lo + S n));
      destruct (Nat.eqb_spec i lo); cbn; lia || reflexivity.
Qed.

(** Every insert, cut off after any number of stores. *)
Theorem insert_ok s ids es lv k v r : inv s ids es lv -> 2 <= maxl -> r < maxl -> (es = [] -> k <> minkey) ->
  exists b p, insert_stores maxl s k v r = Ok (b, p) /\ (b = true <-> get k es = None) /\
    forall m, exists s' ids' es' lv', st_exec s (firstn m p) = Ok s' /\ inv s' ids' es' lv' /\
      (es' = es \/ es' = ins k v es) /\
      (length p <= m -> es' = ins k v es /\ scount s' = if b then S (scount s) else scount s).
Proof.
  intros H HM Hr Hk. destruct (inv_split k H) as (I1 & I2 & e1 & e2 & Hi & He & M1 & M2 & L1 & L2).
  unfold insert_stores. pose proof (i_level H) as HL.
  destruct (@descend_upd_ok s ids es lv k I1 I2 e1 e2 H Hi He M1 M2 L1 L2 (slevel s) 0 (repeat None maxl)) as (u & Eu & Lu & Nu);
    [exact HL|apply repeat_length|now left|].
  rewrite Eu. cbn [bind]. rewrite (next_ok H Hi). cbn [bind].
  assert (DUP : forall b I2' x w e2', I2 = b :: I2' -> e2 = (x, w) :: e2' -> x = k -> 
    exists x, nth_error (snodes s) b = Some x /\ nkey x = k).
  { intros b I2' x w e2' -> -> ->. cbn in M2. injection M2 as E _. apply ent_node in E as (y & E & ? & _). eauto. }
  assert (SAME : (exists w e2', e2 = (k, w) :: e2') \/ agt k (keys e2)).
  { destruct e2 as [|[x w] e2']; [right; constructor|]. destruct (Z.eq_dec x k) as [->|N]; [left; eauto|right].
    pose proof (i_sorted H) as S. unfold sorted in S. rewrite He, keys_app in S. apply ssorted_app in S as (_ & S & _).
    cbn [keys map fst] in *. apply ssorted_cons in S as [_ S].
    unfold age in L2. inversion L2; subst. constructor; [lia|]. unfold agt in S. eapply Forall_impl; [|exact S]. cbn. lia. }
  destruct SAME as [(w & e2' & ->)|L2'].
  - destruct I2 as [|b I2]; [discriminate|]. cbn [hd_error].
    destruct (DUP b I2 k w e2' eq_refl eq_refl eq_refl) as (x & Ex & Kx). unfold node_at. rewrite Ex. cbn [bind of_opt].
    rewrite (proj2 (Z.eqb_eq _ _) Kx). do 2 eexists. split; [reflexivity|]. split.
    { split; [discriminate|]. rewrite He, get_app_lt by assumption. cbn [get]. now rewrite Z.eqb_refl. }
    destruct (@inv_setval s ids es lv k w v b I1 I2 e1 e2' H Hi He M1 M2) as (s' & Es & Hs' & Hc').
    intros [|m].
    + exists s, ids, es, lv. cbn [firstn st_exec length]. splits; auto; lia.
    + exists s', ids, (ins k v es), lv. cbn [firstn]. rewrite firstn_nil. cbn [st_exec]. rewrite Es. cbn [bind].
      rewrite He, ins_old by assumption. splits; auto.
  - assert (GN : get k es = None) by (rewrite He, get_app_lt by assumption; now apply get_none_gt).
    assert (EI : ins k v es = e1 ++ (k, v) :: e2) by (rewrite He; now apply ins_new).
    set (node := match hd_error I2 with Some p => p | None => pred lv I1 0 end).
    assert (exists x, nth_error (snodes s) node = Some x /\ nkey x <> k) as (x & Ex & Kx).
    { unfold node. destruct I2 as [|b I2]; cbn [hd_error].
      - rewrite (pred0 H Hi). destruct (last_in I1 0) as [E|E].
        + rewrite E. destruct I1 as [|c I1].
          * destruct (i_head H) as (u0 & Hu). apply ent_node in Hu as (y & Ey & Ky & _). exists y. split; [assumption|].
            rewrite Ky. intros X. apply Hk; [|now symmetry]. rewrite He. destruct e1; [|discriminate]. destruct e2; [reflexivity|discriminate].
          * exfalso. rewrite last_cons in E. pose proof (i_nodup H) as ND. rewrite Hi in ND. inversion ND as [|? ? NI _]; subst.
            apply NI. change (In 0 ((c :: I1) ++ [])). apply in_or_app. left. rewrite <- E. destruct (last_in I1 c) as [->|]; [now left|now right].
        + destruct (@I1_lt s k I1 e1 M1 L1 _ E) as (y & w & Ey & Hy). apply ent_node in Ey as (z & Ez & <- & _).
          exists z. split; [assumption|lia].
      - destruct e2 as [|[y w] e2]; [discriminate|]. cbn in M2. injection M2 as E _. apply ent_node in E as (z & Ez & Kz & _).
        exists z. split; [assumption|]. rewrite Kz. unfold agt in L2'. apply Forall_inv in L2'. cbn in L2'. lia. }
    unfold node_at. rewrite Ex. cbn [bind of_opt]. rewrite (proj2 (Z.eqb_neq _ _) Kx).
    set (nl := random_level r). assert (Hnl : 1 <= nl < maxl) by (unfold nl, random_level; destruct (Nat.eqb_spec r 0); lia).
    assert (exists u', (if slevel s <? nl then for_up (S (slevel s)) (nl - S (slevel s)) (fun i u => of_opt (lset u i (Some 0))) u else Ok u) = Ok u' /\
      forall i, i < nl -> nth_error u' i = Some (Some (pred lv I1 i))) as (u' & Eu' & Nu').
    { destruct (Nat.ltb_spec (slevel s) nl).
      - destruct (@upd_head (nl - S (slevel s)) (S (slevel s)) u) as (u' & E & N); [lia|]. exists u'. split; [assumption|].
        intros i Hi'. rewrite N, Nu. destruct (Nat.leb_spec (S (slevel s)) i); destruct (Nat.ltb_spec i (S (slevel s) + (nl - S (slevel s)))); try lia; cbn [andb].
        + unfold pred. rewrite on_none; [reflexivity|]. eapply Forall_impl; [|exact (I1_lv H Hi)]. cbn. lia.
        + destruct (Nat.leb_spec i (slevel s)); [reflexivity|lia].
      - exists u. split; [reflexivity|]. intros i Hi'. rewrite Nu. destruct (Nat.leb_spec i (slevel s)); [reflexivity|lia]. }
    rewrite Eu'. cbn [bind].
    set (x0 := SNode k v nl (repeat None maxl)). set (new := length (snodes s)).
    set (G := if slevel s <? nl then [SetLevel nl] else []).
    set (lev := Nat.max (slevel s) nl). set (s1 := SList (snodes s ++ [x0]) lev (scount s)).
    assert (EG : st_exec s G = Ok (SList (snodes s) lev (scount s)) /\ length G <= 1 /\ inv (SList (snodes s) lev (scount s)) ids es lv).
    { unfold G, lev. destruct (Nat.ltb_spec (slevel s) nl); cbn [st_exec st_step bind length].
      - rewrite Nat.max_r by lia. splits; auto. apply inv_level; auto; lia.
      - rewrite Nat.max_l by lia. splits; auto; try lia; [now destruct s|apply inv_level; auto; lia]. }
    destruct EG as (EG & LG & IG).
    assert (H1 : inv s1 (I1 ++ I2) (e1 ++ e2) lv).
    { rewrite <- Hi, <- He. apply (@inv_new (SList (snodes s) lev (scount s))); auto; [apply repeat_length|cbn [slevel]; unfold lev; lia]. }
    assert (IB := ids_bound (i_ent H)).
    assert (ME : forall l, incl l ids -> map (ent (snodes s1)) l = map (ent (snodes s)) l).
    { intros l Hl. apply map_ext_in. intros b Hb. unfold ent, s1. cbn [snodes]. rewrite nth_error_app1; [reflexivity|]. now apply IB, Hl. }
    assert (M1' : map (ent (snodes s1)) I1 = map Some e1) by (rewrite ME; [assumption|]; rewrite Hi; intros b Hb; apply in_or_app; now left).
    assert (M2' : map (ent (snodes s1)) I2 = map Some e2) by (rewrite ME; [assumption|]; rewrite Hi; intros b Hb; apply in_or_app; now right).
    assert (Hnew : ent (snodes s1) new = Some (k, v)).
    { unfold ent, s1, new. cbn [snodes]. rewrite nth_error_app2 by lia. rewrite Nat.sub_diag. reflexivity. }
    assert (B0 : 0 < length (snodes s)).
    { destruct (i_head H) as (u0 & Hu). apply nth_error_Some. unfold ent in Hu. destruct (nth_error (snodes s) 0); discriminate. }
    assert (N0 : ~ In new (0 :: I1 ++ I2)).
    { rewrite <- Hi. intros [X|X]; [unfold new in X; lia|]. apply IB in X. unfold new in X. lia. }
    destruct (@link_all s1 I1 I2 e1 e2 lv k v new H1 Hnew N0 u' nl 0 (snodes s1) lev (scount s)) as (P & EP & HP); [exact (mid0 new H1)|lia|auto|].
    rewrite EP. cbn [bind]. do 2 eexists. split; [reflexivity|]. split; [tauto|]. intros m.
    (* stores before the new node is allocated *)
    fold G. fold x0. rewrite firstn_app, st_exec_app.
    destruct (Nat.leb_spec (length G) m) as [Gm|Gm].
    2:{ assert (m = 0) as -> by lia. cbn [firstn st_exec bind]. exists s, ids, es, lv. splits; auto.
        intros X. exfalso. rewrite app_length in X. cbn [length] in X. lia. }
    rewrite firstn_all2 by assumption. rewrite EG. cbn [bind].
    destruct (m - length G) as [|m'] eqn:Em.
    { cbn [firstn st_exec]. exists (SList (snodes s) lev (scount s)), ids, es, lv. splits; auto.
      intros X. exfalso. rewrite app_length in X. cbn [length] in X. lia. }
    cbn [firstn st_exec st_step bind]. change (SList (snodes (SList (snodes s) lev (scount s)) ++ [x0]) (slevel (SList (snodes s) lev (scount s))) (scount (SList (snodes s) lev (scount s)))) with s1.
    rewrite firstn_app, st_exec_app. destruct (HP m') as (ns' & j' & Ex' & Hm' & Bj & Hl').
    change (SList (snodes s1) lev (scount s)) with s1 in Ex'. rewrite Ex'. cbn [bind].
    assert (HT : exists c, st_exec (SList ns' lev (scount s)) (firstn (m' - length P) [IncCount]) = Ok (SList ns' lev c) /\
      (0 < m' - length P -> c = S (scount s))).
    { destruct (m' - length P) as [|q]; [exists (scount s); split; [reflexivity|lia]|]. cbn [firstn]. rewrite firstn_nil. cbn [st_exec st_step bind].
      eexists. split; reflexivity. }
    destruct HT as (c & HT & Hc). rewrite HT.
    pose proof (@mid_inv s1 I1 I2 e1 e2 lv k v new H1 M1' M2' L1 L2' Hnew N0 ns' j' c Hm') as HI.
    exists (SList ns' lev c), (if j' =? 0 then I1 ++ I2 else I1 ++ new :: I2), (if j' =? 0 then e1 ++ e2 else e1 ++ (k, v) :: e2), (fun b => if b =? new then j' else lv b).
    splits; auto.
    + apply HI. unfold s1. cbn [slevel]. unfold lev. lia.
    + rewrite EI, He. destruct (j' =? 0); auto.
    + intros X. rewrite app_length in X. cbn [length] in X. rewrite app_length in X. cbn [length] in X.
      rewrite Hl' by lia. destruct (Nat.eqb_spec (0 + nl) 0); [lia|]. rewrite EI. split; [reflexivity|]. cbn [scount]. apply Hc. lia.
Qed.

(** ** Histories *)
Lemma inv_new_list : 1 <= maxl -> inv (s_new maxl minkey v0) [] [] (fun _ => 0).
Proof.
  intros HM. constructor; cbn [s_new snodes slevel].
  - constructor; [apply repeat_length|constructor].
  - exists v0. reflexivity.
  - reflexivity.
  - constructor.
  - repeat constructor. intros [].
  - intros i Hi. cbn. unfold fwd, node_at. cbn [nth_error of_opt bind nfwd].
    destruct (nth_error (repeat (@None nat) maxl) i) as [o|] eqn:E.
    + apply nth_error_In in E. apply repeat_spec in E. now subst.
    + apply nth_error_None in E. rewrite repeat_length in E. lia.
  - constructor.
  - lia.
Qed.

Definition sop_key (o : sop V) := match o with SIns k _ _ => k | SCrash k _ _ _ => k end.
Definition sop_rnd (o : sop V) := match o with SIns _ _ r => r | SCrash _ _ r _ => r end.

Lemma step_ok' s ids es lv o : inv s ids es lv -> 2 <= maxl -> sop_rnd o < maxl -> (es = [] -> sop_key o <> minkey) ->
  exists s' ids' es' lv', s_step maxl s o = Ok s' /\ inv s' ids' es' lv' /\
    match o with
    | SIns k v _ => es' = ins k v es /\ scount s' = match get k es with None => S (scount s) | Some _ => scount s end
    | SCrash k v _ _ => es' = es \/ es' = ins k v es
    end.
Proof.
  intros H HM Hr Hk. destruct o as [k v r|k v r n]; cbn [sop_key sop_rnd s_step] in *.
  - destruct (@insert_ok s ids es lv k v r H HM Hr Hk) as (b & p & E & Hb & P). unfold insert. rewrite E. cbn [bind fst snd].
    destruct (P (length p)) as (s' & ids' & es' & lv' & E' & H' & _ & X). rewrite firstn_all in E'. rewrite E'. cbn [bind fst].
    destruct X as [-> Hc]; [lia|]. exists s', ids', (ins k v es), lv'. splits; auto. rewrite Hc.
    destruct (get k es); destruct b; auto; exfalso.
    + destruct Hb as [Hb _]. specialize (Hb eq_refl). discriminate.
    + destruct Hb as [_ Hb]. specialize (Hb eq_refl). discriminate.
  - destruct (@insert_ok s ids es lv k v r H HM Hr Hk) as (b & p & E & Hb & P). rewrite E. cbn [bind fst snd].
    destruct (P n) as (s' & ids' & es' & lv' & E' & H' & D & _). exists s', ids', es', lv'. auto.
Qed.

Lemma insert_ret s ids es lv k v r : inv s ids es lv -> 2 <= maxl -> r < maxl -> (es = [] -> k <> minkey) ->
  exists s' b, insert maxl s k v r = Ok (s', b) /\ (b = true <-> get k es = None).
Proof.
  intros H HM Hr Hk. destruct (@insert_ok s ids es lv k v r H HM Hr Hk) as (b & p & E & Hb & P). unfold insert. rewrite E. cbn [bind fst snd].
  destruct (P (length p)) as (s' & ids' & es' & lv' & E' & _). rewrite firstn_all in E'. rewrite E'. cbn [bind fst]. eauto.
Qed.

(** What a history with power failures may leave behind. *)
Fixpoint leaves (es : list (Z * V)) (os : list (sop V)) (es' : list (Z * V)) : Prop :=
  match os with
  | [] => es' = es
  | SIns k v _ :: r => leaves (ins k v es) r es'
  | SCrash k v _ _ :: r => leaves es r es' \/ leaves (ins k v es) r es'
  end.

Lemma ins_nonnil k v es : ins k v es <> [].
Proof. destruct es as [|[x w] es]; cbn; [discriminate|]. destruct (x =? k)%Z; [discriminate|]. destruct (k <? x)%Z; discriminate. Qed.

Lemma run_ok os : 2 <= maxl -> forall s ids es lv, inv s ids es lv ->
  Forall (fun o => sop_rnd o < maxl) os -> (es = [] -> Forall (fun o => sop_key o <> minkey) os) ->
  exists s' ids' es' lv', s_run maxl s os = Ok s' /\ inv s' ids' es' lv' /\ leaves es os es'.
Proof.
  intros HM. induction os as [|o os IH]; intros s ids es lv H F K; cbn [s_run].
  - exists s, ids, es, lv. splits; auto; reflexivity.
  - inversion F as [|? ? F1 F2]; subst.
    destruct (@step_ok' s ids es lv o H HM F1) as (s1 & ids1 & es1 & lv1 & E1 & H1 & D).
    { intros X. specialize (K X). now inversion K. }
    rewrite E1. cbn [bind].
    assert (NE : es1 = [] -> Forall (fun o => sop_key o <> minkey) os).
    { intros ->. apply Forall_inv_tail with o. apply K. destruct o as [k v r|k v r n].
      - destruct D as [D _]. symmetry in D. now apply ins_nonnil in D.
      - destruct D as [D|D]; [now rewrite D|]. symmetry in D. now apply ins_nonnil in D. }
    destruct (IH s1 ids1 es1 lv1 H1 F2 NE) as (s' & ids' & es' & lv' & E' & H' & L'). exists s', ids', es', lv'. splits; auto.
    destruct o as [k v r|k v r n]; cbn [leaves]; [destruct D as [-> _]; exact L'|]. destruct D as [->| ->]; auto.
Qed.

Lemma run_count os : 2 <= maxl -> forall s ids es lv, inv s ids es lv -> scount s = length es ->
  Forall (fun o => sop_rnd o < maxl) os -> (es = [] -> Forall (fun o => sop_key o <> minkey) os) ->
  Forall (fun o => match o with SIns _ _ _ => True | _ => False end) os ->
  exists s' ids' es' lv', s_run maxl s os = Ok s' /\ inv s' ids' es' lv' /\ scount s' = length es'.
Proof.
  intros HM. induction os as [|o os IH]; intros s ids es lv H HC F K O; cbn [s_run].
  - exists s, ids, es, lv. auto.
  - inversion F as [|? ? F1 F2]; subst. inversion O as [|? ? O1 O2]; subst.
    destruct (@step_ok' s ids es lv o H HM F1) as (s1 & ids1 & es1 & lv1 & E1 & H1 & D).
    { intros X. specialize (K X). now inversion K. }
    rewrite E1. cbn [bind]. destruct o as [k v r|]; [|contradiction]. destruct D as [-> D].
    apply (IH s1 ids1 (ins k v es) lv1 H1); auto.
    + rewrite D, HC. pose proof (i_sorted H) as S. destruct (get k es) as [w|] eqn:G.
      * symmetry. apply length_ins_old; [assumption|congruence].
      * symmetry. now apply length_ins_new.
    + intros X. now apply ins_nonnil in X.
Qed.

(** ** printList *)
Lemma show_level_ok ns i : forall l a fuel o r, fwd ns a i = Ok o -> chain ns i a l -> length l <= fuel -> map (ent ns) l = map Some r ->
  show_level fuel ns i o = Ok r.
Proof.
  induction l as [|b l IH]; intros a fuel o r Ho C L M; cbn [chain] in C.
  - rewrite Ho in C. injection C as ->. destruct r; [|discriminate]. destruct fuel; reflexivity.
  - destruct C as [C1 C2]. rewrite Ho in C1. injection C1 as ->. destruct r as [|[x w] r]; [discriminate|].
    cbn [map] in M. injection M as E M. apply ent_node in E as (y & Ey & Ky & Vy).
    destruct fuel as [|fuel]; [cbn in L; lia|]. cbn [show_level]. unfold node_at at 1. rewrite Ey. cbn [bind of_opt].
    assert (exists o', fwd ns b i = Ok o') as (o' & Eo) by (destruct l; cbn in C2; [eauto|destruct C2; eauto]).
    pose proof Eo as Eo'. unfold fwd, node_at in Eo'. rewrite Ey in Eo'. cbn [bind of_opt] in Eo'. rewrite Eo'. cbn [bind].
    rewrite (IH b fuel o' r Eo C2); [|cbn in L; lia|assumption]. cbn [bind]. now rewrite Ky, Vy.
Qed.

Lemma sub_entries ns f : forall ids es, map (ent ns) ids = map Some es -> sorted es ->
  exists r, map (ent ns) (filter f ids) = map Some r /\ sorted r /\ incl r es.
Proof.
  induction ids as [|b ids IH]; intros es M S; destruct es as [|e es]; try discriminate.
  - exists []. splits; [reflexivity|constructor|easy].
  - cbn [map] in M. injection M as E M. unfold sorted in S. cbn [keys map] in S. apply ssorted_cons in S as [S A].
    destruct (IH es M S) as (r & Mr & Sr & Ir). cbn [filter]. destruct (f b).
    + exists (e :: r). splits.
      * cbn [map]. now rewrite E, Mr.
      * unfold sorted. cbn [keys map]. apply ssorted_cons. split; [assumption|]. unfold agt in *. rewrite Forall_forall in *.
        intros x Hx. apply A. apply in_map_iff in Hx as (y & <- & Hy). apply in_map. now apply Ir.
      * intros y [<-|Hy]; [now left|right; now apply Ir].
    + exists r. splits; auto. intros y Hy. right. now apply Ir.
Qed.

Lemma in_entries ns l r e : map (ent ns) l = map Some r -> (In e r <-> exists b, In b l /\ ent ns b = Some e).
Proof.
  intros M. split.
  - intros He. apply (in_map Some) in He. rewrite <- M in He. apply in_map_iff in He as (b & Hb & HI). eauto.
  - intros (b & Hb & Eb). apply (in_map (ent ns)) in Hb. rewrite M, Eb in Hb. apply in_map_iff in Hb as (y & Ey & Hy). congruence.
Qed.

Lemma show_levels_ok s ids es lv : inv s ids es lv -> forall i, i < maxl ->
  exists rows, show_levels i (snodes s) = Ok rows /\ length rows = S i /\
    (forall j r, nth_error rows j = Some r -> sorted r /\ map (ent (snodes s)) (on lv (i - j) ids) = map Some r).
Proof.
  intros H. induction i as [|i IH]; intros Hi; cbn [show_levels].
  - pose proof (i_chain H Hi) as C. assert (exists o, fwd (snodes s) 0 0 = Ok o) as (o & Eo) by (destruct (on lv 0 ids); cbn in C; [eauto|destruct C; eauto]).
    rewrite Eo. cbn [bind]. destruct (sub_entries (fun b => 0 <? lv b) (i_ent H) (i_sorted H)) as (r & Mr & Sr & _).
    rewrite (@show_level_ok (snodes s) 0 (on lv 0 ids) 0 _ o r Eo C); [|apply short; [apply on_nodup; pose proof (i_nodup H) as X; now inversion X|]|exact Mr].
    2:{ intros b Hb. apply on_in in Hb. apply (ids_bound (i_ent H)). tauto. }
    cbn [bind]. exists [r]. splits; auto. intros [|[|j]] r' E; try discriminate. injection E as <-. cbn [Nat.sub]. auto.
  - pose proof (i_chain H Hi) as C. assert (exists o, fwd (snodes s) 0 (S i) = Ok o) as (o & Eo) by (destruct (on lv (S i) ids); cbn in C; [eauto|destruct C; eauto]).
    rewrite Eo. cbn [bind]. destruct (sub_entries (fun b => S i <? lv b) (i_ent H) (i_sorted H)) as (r & Mr & Sr & _).
    rewrite (@show_level_ok (snodes s) (S i) (on lv (S i) ids) 0 _ o r Eo C); [|apply short; [apply on_nodup; pose proof (i_nodup H) as X; now inversion X|]|exact Mr].
    2:{ intros b Hb. apply on_in in Hb. apply (ids_bound (i_ent H)). tauto. }
    cbn [bind]. destruct IH as (rows & E & L & P); [lia|]. rewrite E. cbn [bind]. exists (r :: rows). splits; auto; [cbn [length]; lia|].
    intros [|j] r' E'; cbn [nth_error] in E'.
    + injection E' as <-. split; [assumption|exact Mr].
    + apply P in E'. exact E'.
Qed.

Theorem print_ok s ids es lv : inv s ids es lv -> exists rows, print_list s = Ok (scount s, rows) /\ length rows = S (slevel s) /\
  (forall r, In r rows -> sorted r) /\
  (forall i a b, nth_error rows i = Some a -> nth_error rows (S i) = Some b -> incl a b) /\
  nth_error rows (slevel s) = Some es.
Proof.
  intros H. unfold print_list. destruct (show_levels_ok H (i_level H)) as (rows & E & L & P). rewrite E. cbn [bind]. exists rows. splits; auto.
  - intros r Hr. apply In_nth_error in Hr as (j & Hj). now apply P in Hj.
  - intros i a b Ha Hb e He. apply P in Ha as [_ Ha]. pose proof (proj1 (nth_error_Some rows (S i))) as B. rewrite Hb in B. specialize (B ltac:(discriminate)).
    apply P in Hb as [_ Hb]. apply (in_entries e Ha) in He as (x & Hx & Ex). apply (in_entries e Hb). exists x. split; [|assumption].
    apply on_in in Hx. apply on_in. split; [tauto|]. lia.
  - destruct (nth_error rows (slevel s)) as [r|] eqn:Er; [|apply nth_error_None in Er; lia].
    apply P in Er as [_ Er]. rewrite Nat.sub_diag in Er. rewrite on_zero in Er by (eapply Forall_impl; [|exact (i_lv H)]; cbn; lia).
    rewrite (i_ent H) in Er. f_equal. clear -Er. revert r Er. induction es as [|e es IH]; intros [|x r] E; try discriminate; [reflexivity|].
    cbn in E. injection E as -> E. f_equal. now apply IH.
Qed.

End Proofs.
