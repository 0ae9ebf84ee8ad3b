(** The nodes of woPSkiplist: slots, bounds, insertion and split. *)
From Verif Require Import Base ArrLemmas MapSpec SortedList SearchModel SearchProofs RankModel RankProofs
  BitmapModel BitmapProofs ULeafModel ULeafProofs SlotLemmas FLeafModel FLeafProofs WoModel.
From Coq Require Import Permutation.
Open Scope nat_scope.

Section Node.
Variables (V : Type) (t : ktype) (N M : nat).
Notation wcell := (wcell V).
Notation wnode := (wnode V).
Implicit Types (c : wcell) (ns : list wnode) (es xs : list (Z * V)) (sl : list (option (Z * V))).

Definition at_slot c (i : nat) (o : option (Z * V)) : Prop :=
  match o with
  | None => bit (wb c) i = false
  | Some (k, v) => bit (wb c) i = true /\ aget (wk c) i = Ok k /\ aget (wv c) i = Ok v
  end.
Definition wa_rep c sl : Prop :=
  length sl = N /\ bm_ok N (wb c) /\ length (wk c) = N /\ length (wv c) = N /\
  forall i o, nth_error sl i = Some o -> at_slot c i o.

Definition minl es : Z := fold_right Z.min (kt_max t) (keys es).
Definition maxl es : Z := fold_right Z.max (kt_min t) (keys es).

(** The node holds [es]; its bounds are exact. *)
Definition crep c es : Prop :=
  sorted es /\ Forall (kt_in t) (keys es) /\ (exists sl, Permutation (somes sl) es /\ wa_rep c sl) /\
  wmin c = minl es /\ wmax c = maxl es.

(** ** Bounds *)
Lemma minl_perm a b : Permutation a b -> minl a = minl b.
Proof.
  unfold minl. intros P. apply (perm_keys (V := V)) in P. induction P; cbn [fold_right]; try congruence; lia.
Qed.
Lemma maxl_perm a b : Permutation a b -> maxl a = maxl b.
Proof.
  unfold maxl. intros P. apply (perm_keys (V := V)) in P. induction P; cbn [fold_right]; try congruence; lia.
Qed.
Lemma minl_le es k : In k (keys es) -> (minl es <= k)%Z.
Proof. unfold minl. induction (keys es) as [|x l IH]; cbn [In fold_right]; [tauto|]. intros [->|H]; [lia|]. specialize (IH H). lia. Qed.
Lemma maxl_ge es k : In k (keys es) -> (k <= maxl es)%Z.
Proof. unfold maxl. induction (keys es) as [|x l IH]; cbn [In fold_right]; [tauto|]. intros [->|H]; [lia|]. specialize (IH H). lia. Qed.
Lemma minl_glb es z : (z <= kt_max t)%Z -> (forall k, In k (keys es) -> z <= k)%Z -> (z <= minl es)%Z.
Proof.
  unfold minl. intros Hz. induction (keys es) as [|x l IH]; intros H; cbn [fold_right]; [assumption|].
  specialize (IH (fun k Hk => H k (or_intror Hk))). specialize (H x (or_introl eq_refl)). lia.
Qed.
Lemma maxl_lub es z : (kt_min t <= z)%Z -> (forall k, In k (keys es) -> k <= z)%Z -> (maxl es <= z)%Z.
Proof.
  unfold maxl. intros Hz. induction (keys es) as [|x l IH]; intros H; cbn [fold_right]; [assumption|].
  specialize (IH (fun k Hk => H k (or_intror Hk))). specialize (H x (or_introl eq_refl)). lia.
Qed.
Lemma maxl_in es : es <> [] -> Forall (kt_in t) (keys es) -> In (maxl es) (keys es).
Proof.
  unfold maxl. destruct es as [|e es]; [congruence|]. intros _. cbn [keys map]. fold (keys es). generalize (fst e). generalize (keys es). clear es e.
  induction l as [|y l IH]; intros x F; cbn [fold_right].
  - inversion F as [|? ? [F1 _] _]; subst. left. lia.
  - inversion F as [|? ? Fx F']; subst. specialize (IH y F'). cbn [fold_right] in IH.
    destruct (Z.max_spec x (Z.max y (fold_right Z.max (kt_min t) l))) as [[_ ->]|[_ ->]]; [right; exact IH|now left].
Qed.
Lemma minl_in es : es <> [] -> Forall (kt_in t) (keys es) -> In (minl es) (keys es).
Proof.
  unfold minl. destruct es as [|e es]; [congruence|]. intros _. cbn [keys map]. fold (keys es). generalize (fst e). generalize (keys es). clear es e.
  induction l as [|y l IH]; intros x F; cbn [fold_right].
  - inversion F as [|? ? [_ F1] _]; subst. left. lia.
  - inversion F as [|? ? Fx F']; subst. specialize (IH y F'). cbn [fold_right] in IH.
    destruct (Z.min_spec x (Z.min y (fold_right Z.min (kt_max t) l))) as [[_ ->]|[_ ->]]; [now left|right; exact IH].
Qed.

(** ** Reading *)
Lemma wa_at c sl i : wa_rep c sl -> i < N -> exists o, nth_error sl i = Some o /\ at_slot c i o.
Proof.
  intros (HL & _ & _ & _ & H) Hi. destruct (nth_error sl i) as [o|] eqn:E; [eauto|]. apply nth_error_None in E. lia.
Qed.

Definition tl c : fleaf V := FLeaf (wb c) (repeat 0%Z N) (wk c) (wv c).
Lemma to_fa c sl : wa_rep c sl -> fa_rep (fun _ => 0%Z) N (tl c) sl.
Proof.
  intros (H1 & H2 & H3 & H4 & H5). unfold fa_rep, tl. cbn [fb ff fk fv]. splits; auto; [apply repeat_length|].
  intros i o E. specialize (H5 i o E). pose proof (nth_error_Some_lt E) as Hi. rewrite H1 in Hi.
  destruct o as [[k v]|]; unfold cell; cbn [fb ff fk fv]; [|exact H5]. destruct H5 as (A & B & C). splits; auto.
  unfold lget. rewrite (nth_error_repeat _ Hi). reflexivity.
Qed.
Lemma of_fa c sl : fa_rep (fun _ => 0%Z) N (tl c) sl -> wa_rep c sl.
Proof.
  intros (H1 & H2 & H3 & H4 & H5 & H6). unfold wa_rep. splits; auto.
  intros i o E. specialize (H6 i o E). destruct o as [[k v]|]; unfold cell in H6; cbn in *; tauto.
Qed.

Lemma w_find_ok c sl key : wa_rep c sl -> forall n i, i + n = N ->
  exists o, w_find N n c i key = Ok o /\
    match o with
    | Some r => exists v, nth_error sl r = Some (Some (key, v))
    | None => forall j v, i <= j -> nth_error sl j <> Some (Some (key, v))
    end.
Proof.
  intros HR. pose proof HR as (HL & HB & _). induction n as [|n IH]; intros i Hi; cbn [w_find].
  - exists None. split; [reflexivity|]. intros j v Hj E. apply nth_error_Some_lt in E. lia.
  - rewrite bm_test_ok by (auto; lia). cbn [bind]. destruct (@wa_at c sl i HR) as (o & Eo & Co); [lia|].
    assert (STEP : (forall v, o <> Some (key, v)) -> exists o, w_find N n c (S i) key = Ok o /\
      match o with
      | Some r => exists v, nth_error sl r = Some (Some (key, v))
      | None => forall j v, i <= j -> nth_error sl j <> Some (Some (key, v))
      end).
    { intros NO. destruct (IH (S i)) as (r & E & Hr); [lia|]. exists r. split; [assumption|]. destruct r as [r|]; [assumption|].
      intros j v Hj. destruct (Nat.eq_dec j i) as [->|]; [rewrite Eo; intros [= X]; eapply NO; eauto|apply Hr; lia]. }
    destruct o as [[k v]|]; unfold at_slot in Co.
    + destruct Co as (-> & -> & _). cbn [bind]. destruct (Z.eqb_spec k key) as [->|NE].
      * exists (Some i). eauto.
      * apply STEP. intros v' [= ? ?]. congruence.
    + rewrite Co. cbn [bind]. apply STEP. discriminate.
Qed.

Lemma w_find_get c sl es key : wa_rep c sl -> Permutation (somes sl) es -> sorted es ->
  exists o, w_find N N c 0 key = Ok o /\
    match o with
    | Some r => exists v, nth_error sl r = Some (Some (key, v)) /\ get key es = Some v
    | None => get key es = None
    end.
Proof.
  intros HR HP HS. destruct (@w_find_ok c sl key HR N 0 eq_refl) as (o & E & H). exists o. split; [assumption|].
  destruct o as [r|].
  - destruct H as (v & Ev). exists v. split; [assumption|]. apply get_in; [assumption|]. eapply Permutation_in; [exact HP|]. apply in_somes. eauto.
  - apply get_none; [assumption|]. intros HI. apply (keys_perm_in key HP) in HI. apply in_map_iff in HI as ([k v] & Ek & HI). cbn [fst] in Ek. subst k.
    apply in_somes in HI as (i & Ei). now apply (H i v) in Ei; [|lia].
Qed.

(** ** Updates of one node *)
Definition nc ns (b : nat) : option wcell := option_map (@wc V) (nth_error ns b).
Definition lens ns : Prop := Forall (fun x => length (wfwd x) = M) ns.

(** [s'] is [s] with the content of node [p] replaced by [c']. *)
Definition same (s s' : wlist V) (p : nat) c' : Prop :=
  length (wnodes s') = length (wnodes s) /\ wheight s' = wheight s /\ (lens (wnodes s) -> lens (wnodes s')) /\
  (forall b, nc (wnodes s') b = if b =? p then Some c' else nc (wnodes s) b) /\
  (forall b i, wfwd_at (wnodes s') b i = wfwd_at (wnodes s) b i).

Lemma same_trans s s1 s2 p c1 c2 : same s s1 p c1 -> same s1 s2 p c2 -> same s s2 p c2.
Proof.
  intros (A1 & A2 & A3 & A4 & A5) (B1 & B2 & B3 & B4 & B5). unfold same. splits; [congruence|congruence|auto| |].
  - intros b. rewrite B4, A4. destruct (b =? p); reflexivity.
  - intros b i. now rewrite B5, A5.
Qed.

Lemma nc_some ns p c : nc ns p = Some c -> exists x, nth_error ns p = Some x /\ wc x = c.
Proof. unfold nc. destruct (nth_error ns p) as [x|]; cbn; [|discriminate]. intros [= <-]. eauto. Qed.

Lemma set_cell_ok s p c c' g : nc (wnodes s) p = Some c -> g c = Ok c' ->
  exists s', on_nodes s (set_cell (wnodes s) p g) = Ok s' /\ same s s' p c'.
Proof.
  intros Hc Hg. apply nc_some in Hc as (x & Ex & Hx). unfold set_cell, wnode_at. rewrite Ex. cbn [bind of_opt]. rewrite Hx, Hg. cbn [bind].
  assert (Hp : p < length (wnodes s)) by (apply nth_error_Some; now rewrite Ex).
  destruct (@lset_some _ (wnodes s) p (WNode c' (wlev x) (wfwd x)) Hp) as (ns' & En). rewrite En. cbn [of_opt on_nodes bind].
  eexists. split; [reflexivity|]. unfold same. cbn [wnodes wheight]. splits; auto.
  - now rewrite (lset_length En).
  - unfold lens. intros F. rewrite Forall_forall in *. intros y Hy. apply In_nth_error in Hy as (q & Hq). rewrite (lset_nth q En) in Hq.
    destruct (q =? p); [injection Hq as <-; cbn; apply F; eapply nth_error_In; eauto|apply F; eapply nth_error_In; eauto].
  - intros b. unfold nc. rewrite (lset_nth b En). destruct (b =? p); reflexivity.
  - intros b i. unfold wfwd_at, wnode_at. rewrite (lset_nth b En). destruct (Nat.eqb_spec b p) as [->|]; [|reflexivity]. now rewrite Ex.
Qed.

Lemma w_exec_app (s : wlist V) a b : w_exec s (a ++ b) = do s' <- w_exec s a; w_exec s' b.
Proof. revert s. induction a as [|x a IH]; intros s; [reflexivity|]. cbn [app w_exec]. destruct (w_step s x); cbn [bind]; auto. Qed.

(** ** Insertion into a node with room *)
Lemma put_slot c sl p k v b : wa_rep c sl -> p < N -> bm_set N (wb c) p true = Ok b ->
  exists ks vs sl', aset (wk c) p k = Ok ks /\ aset (wv c) p v = Ok vs /\ lset sl p (Some (k, v)) = Some sl' /\
    forall mn mx, wa_rep (WCell b ks vs mn mx) sl'.
Proof.
  intros (HL & HB & HK & HV & HC) Hp Eb.
  destruct (@aset_ok _ (wk c) p k) as (ks & E1); [lia|]. destruct (@aset_ok _ (wv c) p v) as (vs & E2); [lia|].
  destruct (bm_set_ok true HB Hp) as (b' & E3 & HB' & Hb). rewrite Eb in E3. injection E3 as <-.
  destruct (@lset_some _ sl p (Some (k, v))) as (sl' & E5); [lia|]. exists ks, vs, sl'. splits; auto. intros mn mx.
  unfold wa_rep. cbn [wb wk wv]. rewrite (lset_length E5), (aset_length E1), (aset_length E2). splits; auto.
  intros i o E. rewrite (lset_nth i E5) in E. destruct (Nat.eqb_spec i p) as [->|NE].
  - injection E as <-. unfold at_slot. cbn [wb wk wv]. now rewrite Hb, Nat.eqb_refl, (aget_aset p E1), (aget_aset p E2), !Nat.eqb_refl.
  - specialize (HC i o E). assert (X : (i =? p) = false) by now apply Nat.eqb_neq.
    destruct o as [[k' v']|]; unfold at_slot in *; cbn [wb wk wv]; rewrite Hb, X; auto. now rewrite (aget_aset i E1), (aget_aset i E2), X.
Qed.

Definition srep c es : Prop := sorted es /\ exists sl, Permutation (somes sl) es /\ wa_rep c sl.
Lemma crep_srep c es : crep c es -> srep c es.
Proof. intros (A & _ & B & _). split; assumption. Qed.
Lemma w_search_srep c es key : srep c es -> w_search_in N c key = Ok (get key es).
Proof.
  intros (HS & (sl & HP & HR)). unfold w_search_in. destruct (w_find_get key HR HP HS) as (o & -> & H). cbn [bind].
  destruct o as [r|]; [|now rewrite H]. destruct H as (v & Ev & ->). destruct HR as (_ & _ & _ & _ & HC). specialize (HC _ _ Ev). cbn in HC.
  destruct HC as (_ & _ & ->). reflexivity.
Qed.

Lemma same_refl s p c : nc (wnodes s) p = Some c -> same s s p c.
Proof. intros H. unfold same. splits; auto. intros b. destruct (Nat.eqb_spec b p) as [->|]; auto. Qed.
Lemma same_nc s s' p c : same s s' p c -> nc (wnodes s') p = Some c.
Proof. intros (_ & _ & _ & H & _). now rewrite H, Nat.eqb_refl. Qed.

(** Every prefix of the stores of an insertion into a node with room. *)
Lemma w_put_ok c es p k v : crep c es -> kt_in t k -> get k es = None -> length es < N ->
  exists q, w_put N c p k v = Ok q /\ forall s, nc (wnodes s) p = Some c -> forall m,
    exists s' c', w_exec s (firstn m q) = Ok s' /\ same s s' p c' /\ (length q <= m -> crep c' (ins k v es)) /\
      (crep c' es \/ crep c' (ins k v es) \/
       srep c' (ins k v es) /\ wmax c' = wmax c /\ (wmin c' = wmin c \/ (wmin c' = k /\ wmax c < k < wmin c)%Z)).
Proof.
  intros HC0 Kk G L. pose proof HC0 as (HS & HK & (sl & HP & HR) & Hmn & Hmx). unfold w_put. pose proof HR as (HL & HB & LK & LV & HC).
  destruct (free_ok (to_fa HR)) as (r & Er & Hr & F1 & F2). cbn [tl fb] in Er. rewrite Er. cbn [bind].
  assert (Hlt : r < N). { rewrite <- (Permutation_length HP) in L. lia. }
  destruct (bm_set_ok true HB Hlt) as (b & Eb & _). rewrite Eb. cbn [bind]. eexists. split; [reflexivity|].
  intros s Hc m. destruct (put_slot k v HR Hlt Eb) as (ks & vs & sl' & E1 & E2 & E3 & HR').
  assert (PI : Permutation ((k, v) :: es) (ins k v es)) by (symmetry; apply ins_new_perm; [assumption|now apply get_none]).
  assert (HP' : Permutation (somes sl') (ins k v es)).
  { rewrite (somes_set (F1 Hlt) eq_refl E3). rewrite <- PI. now constructor. }
  assert (SR : forall mn mx, srep (WCell b ks vs mn mx) (ins k v es)).
  { intros mn mx. split; [now apply sorted_ins|]. exists sl'. split; [assumption|apply HR']. }
  assert (FIN : crep (WCell b ks vs (Z.min k (wmin c)) (Z.max k (wmax c))) (ins k v es)).
  { unfold crep. splits.
    + now apply sorted_ins.
    + rewrite Forall_forall in *. intros x Hx. apply ins_in_keys in Hx as [->|Hx]; auto.
    + exists sl'. split; [assumption|apply HR'].
    + cbn [wmin]. rewrite <- (minl_perm PI), Hmn. reflexivity.
    + cbn [wmax]. rewrite <- (maxl_perm PI), Hmx. reflexivity. }
  set (c1 := WCell (wb c) ks vs (wmin c) (wmax c)). set (c2 := WCell b ks vs (wmin c) (wmax c)).
  assert (R1 : crep c1 es).
  { unfold crep, c1. cbn [wmin wmax]. splits; auto. exists sl. split; [assumption|]. unfold wa_rep. cbn [wb wk wv].
    rewrite (aset_length E1), (aset_length E2). splits; auto. intros i o E. specialize (HC i o E).
    destruct o as [[k' v']|]; unfold at_slot in *; cbn [wb wk wv]; auto. rewrite (aget_aset i E1), (aget_aset i E2).
    destruct (Nat.eqb_spec i r) as [->|]; auto. rewrite (F1 Hlt) in E. discriminate. }
  destruct (@set_cell_ok s p c c1 (fun c => do ks <- aset (wk c) r k; do vs <- aset (wv c) r v; Ok (WCell (wb c) ks vs (wmin c) (wmax c))) Hc) as (s1 & X1 & S1).
  { rewrite E1. cbn [bind]. rewrite E2. reflexivity. }
  destruct (@set_cell_ok s1 p c1 c2 (fun c => Ok (WCell b (wk c) (wv c) (wmin c) (wmax c))) (same_nc S1) eq_refl) as (s2 & X2 & S2).
  assert (MIN : forall s c', nc (wnodes s) p = Some c' -> exists s', w_step s (WMin p k) = Ok s' /\ same s s' p (WCell (wb c') (wk c') (wv c') k (wmax c'))).
  { intros s0 c' H0. exact (@set_cell_ok s0 p c' (WCell (wb c') (wk c') (wv c') k (wmax c')) (fun c => Ok (WCell (wb c) (wk c) (wv c) k (wmax c))) H0 eq_refl). }
  assert (MAX : forall s c', nc (wnodes s) p = Some c' -> exists s', w_step s (WMax p k) = Ok s' /\ same s s' p (WCell (wb c') (wk c') (wv c') (wmin c') k)).
  { intros s0 c' H0. exact (@set_cell_ok s0 p c' (WCell (wb c') (wk c') (wv c') (wmin c') k) (fun c => Ok (WCell (wb c) (wk c) (wv c) (wmin c) k)) H0 eq_refl). }
  assert (T1 : same s s1 p c1) by exact S1. assert (T2 : same s s2 p c2) by (eapply same_trans; eauto).
  destruct m as [|[|m]].
  { exists s, c. cbn [firstn w_exec length]. splits; auto using same_refl. lia. }
  { exists s1, c1. cbn [firstn w_exec length w_step]. rewrite X1. splits; auto. lia. }
  cbn [firstn w_exec length]. cbn [w_step]. rewrite X1. cbn [bind w_step]. rewrite X2. cbn [bind].
  assert (OLD : srep c2 (ins k v es) /\ wmax c2 = wmax c /\ (wmin c2 = wmin c \/ (wmin c2 = k /\ wmax c < k < wmin c)%Z)) by (splits; [apply SR|reflexivity|now left]).
  destruct (Z.ltb_spec k (wmin c)) as [Lmn|Lmn], (Z.gtb_spec k (wmax c)) as [Lmx|Lmx]; cbn [app length].
  - destruct (MIN s2 c2 (same_nc T2)) as (s3 & X3 & S3). destruct (MAX _ _ (same_nc S3)) as (s4 & X4 & S4). cbn [wb wk wv wmin wmax c2] in S4.
    assert (T3 := same_trans T2 S3). assert (T4 := same_trans T3 S4). destruct m as [|[|m]]; cbn [firstn].
    + exists s2, c2. splits; auto. lia.
    + cbn [w_exec]. rewrite X3. eexists s3, _. split; [reflexivity|]. split; [exact T3|]. split; [lia|]. right. right. split; [apply SR|]. cbn [wmax wmin c2]. split; [reflexivity|]. right. lia.
    + rewrite firstn_nil. cbn [w_exec]. rewrite X3. cbn [bind]. rewrite X4. eexists s4, _. split; [reflexivity|]. split; [exact T4|].
      rewrite Z.min_l, Z.max_l in FIN by lia. auto.
  - destruct (MIN s2 c2 (same_nc T2)) as (s3 & X3 & S3). assert (T3 := same_trans T2 S3). cbn [wb wk wv wmin wmax c2] in T3. destruct m as [|m]; cbn [firstn].
    + exists s2, c2. splits; auto. lia.
    + rewrite firstn_nil. cbn [w_exec]. rewrite X3. eexists s3, _. split; [reflexivity|]. split; [exact T3|].
      rewrite Z.min_l, Z.max_r in FIN by lia. auto.
  - destruct (MAX s2 c2 (same_nc T2)) as (s3 & X3 & S3). assert (T3 := same_trans T2 S3). cbn [wb wk wv wmin wmax c2] in T3. destruct m as [|m]; cbn [firstn].
    + exists s2, c2. splits; auto. lia.
    + rewrite firstn_nil. cbn [w_exec]. rewrite X3. eexists s3, _. split; [reflexivity|]. split; [exact T3|].
      rewrite Z.min_r, Z.max_l in FIN by lia. auto.
  - rewrite firstn_nil. exists s2, c2. rewrite Z.min_r, Z.max_r in FIN by lia. splits; auto.
Qed.

(** Overwriting the value of a slot *)
Lemma w_val_ok c es p k v w sl i : crep c es -> wa_rep c sl -> Permutation (somes sl) es -> nth_error sl i = Some (Some (k, w)) ->
  forall s, nc (wnodes s) p = Some c -> exists s' c', w_step s (WVal p i v) = Ok s' /\ same s s' p c' /\ crep c' (ins k v es).
Proof.
  intros (HS & HK & _ & Hmn & Hmx) HR HP Ei s Hc. pose proof HR as (HL & HB & LK & LV & HC). pose proof (nth_error_Some_lt Ei) as Hi. rewrite HL in Hi.
  destruct (@aset_ok _ (wv c) i v) as (vs & E2); [lia|].
  destruct (@set_cell_ok s p c (WCell (wb c) (wk c) vs (wmin c) (wmax c)) (fun c => do vs <- aset (wv c) i v; Ok (WCell (wb c) (wk c) vs (wmin c) (wmax c))) Hc) as (s' & X & S).
  { now rewrite E2. }
  cbn [w_step]. exists s'. eexists. split; [exact X|]. split; [exact S|].
  destruct (@lset_some _ sl i (Some (k, v))) as (sl' & E5); [lia|].
  assert (G : get k es = Some w) by (apply get_in; [assumption|]; eapply Permutation_in; [exact HP|]; apply in_somes; eauto).
  assert (KE : keys (ins k v es) = keys es).
  { destruct (locate k HS) as [(a & b & -> & Ha & Hb)|(a & w' & b & -> & Ha & Hb)].
    - rewrite get_new in G by assumption. discriminate.
    - rewrite ins_old by assumption. now rewrite !keys_app. }
  unfold crep. rewrite KE. splits; auto.
  - now apply sorted_ins.
  - exists sl'. split.
    + destruct (locate k HS) as [(a & b & -> & Ha & Hb)|(a & w' & b & -> & Ha & Hb)].
      { rewrite get_new in G by assumption. discriminate. }
      rewrite get_old in G by assumption. injection G as ->. rewrite ins_old by assumption.
      apply nth_error_split in Ei as (s1 & s2 & -> & Ls). rewrite lset_app_at in E5 by (symmetry; exact Ls). injection E5 as <-.
      rewrite somes_app in HP |- *. cbn [somes] in HP |- *.
      apply Permutation_app_inv in HP. now apply Permutation_elt.
    + unfold wa_rep. cbn [wb wk wv]. rewrite (lset_length E5), (aset_length E2). splits; auto.
      intros j o E. rewrite (lset_nth j E5) in E. destruct (Nat.eqb_spec j i) as [->|NE].
      * injection E as <-. specialize (HC _ _ Ei). unfold at_slot in *. cbn [wb wk wv]. rewrite (aget_aset i E2), Nat.eqb_refl. tauto.
      * specialize (HC j o E). destruct o as [[k' v']|]; unfold at_slot in *; cbn [wb wk wv]; auto. rewrite (aget_aset j E2).
        now rewrite (proj2 (Nat.eqb_neq j i) NE).
  - cbn [wmin]. rewrite Hmn. unfold minl. now rewrite KE.
  - cbn [wmax]. rewrite Hmx. unfold maxl. now rewrite KE.
Qed.

(** ** Split *)
Lemma minl_snoc B k v : minl (B ++ [(k, v)]) = Z.min k (minl B).
Proof. rewrite (@minl_perm (B ++ [(k, v)]) ((k, v) :: B)) by (symmetry; apply Permutation_cons_append). reflexivity. Qed.
Lemma maxl_snoc B k v : maxl (B ++ [(k, v)]) = Z.max k (maxl B).
Proof. rewrite (@maxl_perm (B ++ [(k, v)]) ((k, v) :: B)) by (symmetry; apply Permutation_cons_append). reflexivity. Qed.

Lemma w_empty_rep : wa_rep (w_empty V t N) (repeat None N).
Proof.
  unfold wa_rep, w_empty, w_cell0. cbn [wb wk wv]. unfold anew. rewrite !repeat_length. splits; auto; [apply bm_new_ok|].
  intros i o E. pose proof (nth_error_Some_lt E) as Hi. rewrite repeat_length in Hi. rewrite (nth_error_repeat _ Hi) in E. injection E as <-.
  unfold at_slot. cbn [wb]. apply bit_new.
Qed.

Lemma w_fill_ok c s : forall Q P B m sib, wa_rep c (map Some (P ++ Q)) ->
  wa_rep sib (map Some B ++ repeat None m) -> wmin sib = minl B -> wmax sib = maxl B -> length Q <= m ->
  exists sib' j', for_up (length P) (length Q) (w_fill_step N c s) (sib, length B) = Ok (sib', j') /\
    (exists m', wa_rep sib' (map Some (B ++ filter (ge_key s) Q) ++ repeat None m')) /\
    wmin sib' = minl (B ++ filter (ge_key s) Q) /\ wmax sib' = maxl (B ++ filter (ge_key s) Q).
Proof.
  induction Q as [|[x v] Q IH]; intros P B m sib HC HB Hmn Hmx HL.
  - cbn [length for_up filter]. rewrite app_nil_r. exists sib, (length B). splits; eauto.
  - cbn [length for_up]. pose proof HC as (LN & BC & _ & _ & CC).
    assert (EX : nth_error (map Some (P ++ (x, v) :: Q)) (length P) = Some (Some (x, v))).
    { rewrite nth_error_map, nth_error_app2, Nat.sub_diag by lia. reflexivity. }
    pose proof (CC _ _ EX) as CX. cbn in CX. destruct CX as (Cb & Ck & Cv).
    pose proof (nth_error_Some_lt EX) as HP. rewrite LN in HP.
    assert (HC' : wa_rep c (map Some ((P ++ [(x, v)]) ++ Q))) by now rewrite <- app_assoc.
    unfold w_fill_step at 1. rewrite bm_test_ok by auto. cbn [bind]. rewrite Cb, Ck. cbn [bind filter]. change (ge_key s (x, v)) with (x >=? s)%Z.
    destruct (x >=? s)%Z eqn:EG.
    + rewrite Cv. cbn [bind]. pose proof HB as (LB & BB & _). rewrite app_length, map_length, repeat_length in LB.
      destruct m as [|m]; [cbn [length] in HL; lia|].
      assert (HB0 : length B < N) by lia.
      destruct (bm_set_ok true BB HB0) as (b & Eb & _).
      destruct (put_slot x v HB HB0 Eb) as (ks & vs & sl' & E1 & E2 & E3 & HR').
      rewrite E1. cbn [bind]. rewrite E2. cbn [bind]. rewrite Eb. cbn [bind].
      cbn [repeat] in E3. rewrite lset_app_at in E3 by now rewrite map_length. injection E3 as <-.
      destruct (IH (P ++ [(x, v)]) (B ++ [(x, v)]) m (WCell b ks vs (if (x <? wmin sib)%Z then x else wmin sib) (if (x >? wmax sib)%Z then x else wmax sib))) as (s' & j' & E & H1 & H2 & H3).
      * exact HC'.
      * rewrite map_app, <- app_assoc. apply HR'.
      * cbn [wmin]. rewrite minl_snoc, Hmn. destruct (Z.ltb_spec x (minl B)); lia.
      * cbn [wmax]. rewrite maxl_snoc, Hmx. destruct (Z.gtb_spec x (maxl B)); lia.
      * cbn [length] in HL. lia.
      * rewrite !app_length in E. cbn [length] in E. rewrite !Nat.add_1_r in E. rewrite E. exists s', j'.
        rewrite <- app_assoc in H1, H2, H3. splits; auto.
    + destruct (IH (P ++ [(x, v)]) B m sib) as (s' & j' & E & H1 & H2 & H3); auto.
      * cbn [length] in HL. lia.
      * rewrite !app_length in E. cbn [length bind] in E |- *. rewrite !Nat.add_1_r in E. rewrite E. exists s', j'. splits; auto.
Qed.

Lemma bm_mark_ok : forall (marks : list bool) ws i, bm_ok N ws -> i + length marks <= N ->
  exists ws', bm_mark N ws i marks = Ok ws' /\ bm_ok N ws' /\
    forall j, bit ws' j = match nth_error marks (j - i) with Some m => if i <=? j then m || bit ws j else bit ws j | None => bit ws j end.
Proof.
  induction marks as [|m r IH]; intros ws i HB HL; cbn [bm_mark].
  - exists ws. splits; auto. intros j. now destruct (j - i).
  - cbn [length] in HL.
    assert (exists ws1, (if m then bm_set N ws i true else Ok ws) = Ok ws1 /\ bm_ok N ws1 /\ forall j, bit ws1 j = if j =? i then m || bit ws j else bit ws j) as (ws1 & E1 & B1 & H1).
    { destruct m.
      - destruct (@bm_set_ok N ws i true HB) as (w & A & B & C); [lia|]. exists w. splits; [auto|auto|]. intros j. rewrite C. now destruct (j =? i).
      - exists ws. splits; [auto|auto|]. intros j. now destruct (j =? i). }
    rewrite E1. cbn [bind]. destruct (IH ws1 (S i) B1) as (ws' & E & B' & H'); [lia|]. exists ws'. splits; auto. intros j. rewrite H', H1.
    destruct (Nat.eqb_spec j i) as [->|NE].
    + rewrite Nat.sub_diag, Nat.leb_refl. cbn [nth_error]. replace (S i <=? i) with false by (symmetry; apply Nat.leb_gt; lia). now destruct (nth_error r (i - S i)).
    + destruct (Nat.leb_spec i j).
      * replace (j - i) with (S (j - S i)) by lia. cbn [nth_error]. replace (S i <=? j) with true by (symmetry; apply Nat.leb_le; lia). reflexivity.
      * replace (S i <=? j) with false by (symmetry; apply Nat.leb_gt; lia). destruct (nth_error r (j - S i)), (nth_error (m :: r) (j - i)); reflexivity.
Qed.

Lemma w_bounds_ok c sl : wa_rep c sl -> w_bounds t N (wb c) (wk c) = Ok (maxl (somes sl), minl (somes sl)).
Proof.
  intros HR. pose proof HR as (HL & HB & _ & _ & HC). unfold w_bounds.
  assert (forall sl2 sl1, sl = sl1 ++ sl2 ->
    for_up (length sl1) (length sl2) (fun i m =>
      do b <- bm_test N (wb c) i;
      if (b : bool) then do k <- aget (wk c) i; Ok (if (k >? fst m)%Z then k else fst m, if (k <? snd m)%Z then k else snd m) else Ok m)
      (maxl (somes sl1), minl (somes sl1)) = Ok (maxl (somes sl), minl (somes sl))) as X.
  { induction sl2 as [|o sl2 IH]; intros sl1 ->; cbn [length for_up].
    - now rewrite app_nil_r.
    - assert (EO : nth_error (sl1 ++ o :: sl2) (length sl1) = Some o) by (rewrite nth_error_app2, Nat.sub_diag by lia; reflexivity).
      pose proof (nth_error_Some_lt EO) as Hi. rewrite HL in Hi. specialize (HC _ _ EO).
      specialize (IH (sl1 ++ [o])). rewrite <- app_assoc in IH. specialize (IH eq_refl). rewrite app_length in IH. cbn [length] in IH. rewrite Nat.add_1_r in IH.
      rewrite bm_test_ok by auto. cbn [bind]. destruct o as [[k v]|]; unfold at_slot in HC.
      + destruct HC as (-> & -> & _). cbn [bind fst snd]. rewrite <- IH. f_equal. rewrite somes_app. cbn [somes]. rewrite maxl_snoc, minl_snoc.
        destruct (Z.gtb_spec k (maxl (somes sl1))), (Z.ltb_spec k (minl (somes sl1))); f_equal; lia.
      + rewrite HC. cbn [bind]. rewrite <- IH. f_equal. rewrite somes_app. cbn [somes]. now rewrite app_nil_r. }
  specialize (X sl [] eq_refl). cbn [length somes] in X. rewrite HL in X. exact X.
Qed.

Hypothesis HN : 2 <= N.
Hypothesis Ht : (1 <= kt_bits t <= 64)%Z.

Lemma w_split_ok c es p new : crep c es -> length es = N -> (forall k, In k (keys es) -> 0 <= k)%Z ->
  exists sk b c1 c2 e1 e2, w_split t N M c p new = Ok (sk, [WAlloc (WNode c2 0 (repeat None M)); WBits p b; WMax p (wmax c1); WMin p (wmin c1); WCopy new p 0; WFwd p 0 new]) /\
    wb c1 = b /\ wk c1 = wk c /\ wv c1 = wv c /\ crep c1 e1 /\ crep c2 e2 /\ es = e1 ++ e2 /\ e1 <> [] /\ e2 <> [] /\ length e1 < N /\ length e2 < N /\
    (forall k, In k (keys e1) -> k < sk)%Z /\ (forall k, In k (keys e2) -> sk <= k)%Z.
Proof.
  intros (HS & HK & (sl & HP & HR) & Hmn & Hmx) HL HZ. unfold w_split.
  assert (F : sl = map Some (somes sl)). { apply somes_full. rewrite (Permutation_length HP), HL. destruct HR as (X & _). now rewrite X. }
  set (xs := somes sl) in *. rewrite F in HR. clear F. pose proof HR as (LN & HB & LK & LV & HC). rewrite map_length in LN.
  assert (ND : NoDup (keys xs)). { eapply ua_nodup; eauto. }
  assert (EK : wk c = map Some (keys xs)).
  { apply (read_all_slots N); [lia|]. intros i [k v] E. specialize (HC i (Some (k, v))). rewrite nth_error_map, E in HC.
    specialize (HC eq_refl). cbn in HC. tauto. }
  assert (ER : read_all N 0 (wk c) = Ok (keys xs)).
  { rewrite EK. pose proof (@read_all_ok (keys xs) [] []) as R. rewrite keys_length, LN, app_nil_r in R. exact R. }
  rewrite ER. cbn [bind].
  assert (KX : forall d, In d (keys xs) -> kt_in t d /\ (0 <= d)%Z).
  { intros d Hd. apply (keys_perm_in d HP) in Hd. rewrite Forall_forall in HK. auto. }
  destruct (@findSplitKey_nonneg t (keys xs) Ht) as (s & pos & E & Es & Hb); auto.
  { rewrite keys_length. lia. }
  rewrite E. cbn [bind fst snd].
  assert (EA : aget (wk c) pos = Ok s) by (apply aget_nth; rewrite EK, nth_error_map, Es; reflexivity).
  rewrite EA. cbn [bind].
  destruct (@w_fill_ok c s xs [] [] N (w_empty V t N)) as (c2 & j' & El & (m & H1) & H2 & H3); auto.
  { apply w_empty_rep. }
  { lia. }
  cbn [length app] in *. rewrite LN in El. rewrite El. cbn [bind fst].
  destruct (@bm_mark_ok (map (fun d => (d <? s)%Z) (keys xs)) (bm_new N) 0) as (b & Eb & HBb & Hbit).
  { apply bm_new_ok. }
  { rewrite map_length, keys_length. lia. }
  rewrite Eb. cbn [bind].
  assert (HR1 : forall mn mx, wa_rep (WCell b (wk c) (wv c) mn mx) (map (keep s) xs)).
  { intros mn mx. unfold wa_rep. cbn [wb wk wv]. rewrite map_length. splits; auto. intros i o Ei. rewrite nth_error_map in Ei.
    destruct (nth_error xs i) as [[k v]|] eqn:Ex; [|discriminate]. cbn [option_map] in Ei. injection Ei as <-.
    specialize (HC i (Some (k, v))). rewrite nth_error_map, Ex in HC. specialize (HC eq_refl). cbn in HC. destruct HC as (_ & Ck & Cv).
    assert (Bi : bit b i = (k <? s)%Z).
    { rewrite Hbit, Nat.sub_0_r. unfold keys. rewrite !nth_error_map, Ex. cbn [option_map fst Nat.leb]. rewrite bit_new. apply orb_false_r. }
    unfold keep, lt_key. cbn [fst]. destruct (k >=? s)%Z eqn:EG; cbn [negb]; unfold at_slot; cbn [wb wk wv]; rewrite Bi; [lia|]. splits; auto. lia. }
  pose proof (w_bounds_ok (HR1 0%Z 0%Z)) as EBO. cbn [wb wk] in EBO. rewrite EBO. cbn [bind fst snd]. rewrite somes_keep.
  set (x1 := filter (lt_key s) xs) in *. set (x2 := filter (ge_key s) xs) in *.
  pose proof (filter_both s xs) as FB. fold x1 x2 in FB.
  pose proof (Permutation_length FB) as PL. rewrite app_length in PL.
  pose proof (below_filter s xs) as BF. rewrite Hb, keys_length in BF. fold x1 in BF.
  assert (N1 : 1 <= (N + 1) / 2) by (apply Nat.div_le_lower_bound; lia).
  assert (N2 : (N + 1) / 2 < N) by (apply Nat.div_lt_upper_bound; lia).
  rewrite LN in BF, PL.
  assert (K1 : forall k, In k (keys x1) -> (k < s)%Z).
  { intros k Hk. apply in_map_iff in Hk as (y & <- & Hy). apply filter_In in Hy as [_ Hy]. unfold lt_key in Hy. lia. }
  assert (K2 : forall k, In k (keys x2) -> (s <= k)%Z).
  { intros k Hk. apply in_map_iff in Hk as (y & <- & Hy). apply filter_In in Hy as [_ Hy]. unfold ge_key in Hy. lia. }
  assert (ND' : NoDup (keys (x1 ++ x2))). { eapply Permutation_NoDup; [|exact ND]. apply (perm_keys (V := V)). now symmetry. }
  destruct (nodup_parts ND') as (ND1 & ND2).
  pose proof (sortl_perm ND1) as P1. pose proof (sortl_perm ND2) as P2.
  assert (EE : es = sortl x1 ++ sortl x2).
  { apply sorted_perm_eq; auto.
    - apply sorted_app. splits; [apply sortl_sorted|apply sortl_sorted|].
      intros a c' Ha Hc'. apply (keys_perm_in _ P1) in Ha. apply (keys_perm_in _ P2) in Hc'. specialize (K1 _ Ha). specialize (K2 _ Hc'). lia.
    - rewrite P1, P2, FB. now symmetry. }
  assert (IK : Forall (kt_in t) (keys (sortl x1)) /\ Forall (kt_in t) (keys (sortl x2))).
  { rewrite EE, keys_app in HK. apply Forall_app in HK. exact HK. }
  exists s, b, (WCell b (wk c) (wv c) (minl x1) (maxl x1)), c2, (sortl x1), (sortl x2). cbn [wb wk wv wmin wmax].
  pose proof (Permutation_length P1) as L1. pose proof (Permutation_length P2) as L2.
  splits; auto; try lia.
  - unfold crep. splits; [apply sortl_sorted|tauto| | |].
    + exists (map (keep s) xs). rewrite somes_keep. split; [now symmetry|apply HR1].
    + cbn [wmin]. apply minl_perm. now symmetry.
    + cbn [wmax]. apply maxl_perm. now symmetry.
  - unfold crep. splits; [apply sortl_sorted|tauto| | |].
    + exists (map Some x2 ++ repeat None m). rewrite somes_app, somes_map, somes_none, app_nil_r. split; [now symmetry|assumption].
    + rewrite H2. apply minl_perm. now symmetry.
    + rewrite H3. apply maxl_perm. now symmetry.
  - intros Z0. rewrite Z0 in L1. cbn [length] in L1. lia.
  - intros Z0. rewrite Z0 in L2. cbn [length] in L2. lia.
  - intros k Hk. apply K1. now apply (keys_perm_in _ P1).
  - intros k Hk. apply K2. now apply (keys_perm_in _ P2).
Qed.


(** isFull *)
Lemma full_ok c es : crep c es -> exists b, bm_all N (wb c) = Ok b /\ length es <= N /\ (b = true <-> length es = N).
Proof.
  intros (HS & HK & (sl & HP & HR) & _). pose proof HR as (HL & HB & _ & _ & HC).
  pose proof (somes_length sl) as SL. rewrite (Permutation_length HP), HL in SL.
  destruct (@bm_all_ok N (wb c)) as (b & E & Hb); [lia|assumption|]. exists b. splits; auto. rewrite Hb, <- (Permutation_length HP). split.
  - intros H. rewrite <- HL. apply somes_free. intros i Hi E0. specialize (HC _ _ E0). cbn in HC. rewrite HL in Hi. rewrite H in HC by lia. discriminate.
  - intros H i Hi. destruct (wa_at HR Hi) as (o & Eo & Co). rewrite <- HL in H. apply somes_full in H. rewrite H, nth_error_map in Eo.
    destruct (nth_error (somes sl) i) as [[k v]|]; [|discriminate]. injection Eo as <-. cbn in Co. tauto.
Qed.

End Node.
