(** Tables: invariant, insertion of a row into a block, index. *)
From Coq Require Import Permutation NArith Nnat.
From Verif Require Import Base SerModel SerProofs BdccModel BdccSpec BdccProofs BlockModel PTableModel BlockSpec
  LayoutProofs BlockBytes ColProofs InsColProofs BlockProofs InitProofs TableSpec.
Open Scope Z_scope.

Lemma reg_prefix b p z : reg b p (image 4 z) -> 0 <= z < 65536 -> reg b p (image 2 z).
Proof.
  intros R H. unfold image in *. cbn [bytes] in *. change (2 ^ (8 * Z.of_nat 4)) with 4294967296 in R.
  change (2 ^ (8 * Z.of_nat 2)) with 65536. rewrite (Z.mod_small z 4294967296) in R by lia. rewrite (Z.mod_small z 65536) by lia.
  cbn [reg] in *. tauto.
Qed.

(** ** The index *)
Lemma ix_lookup_erase m k k' : ix_lookup (ix_erase m k) k' = if k =? k' then None else ix_lookup m k'.
Proof.
  induction m as [|[a p] m IH]; cbn [ix_erase ix_lookup]; [now destruct (k =? k')|].
  destruct (Z.eqb_spec a k) as [->|N].
  - rewrite IH. destruct (Z.eqb_spec k k'); reflexivity.
  - cbn [ix_lookup]. rewrite IH. destruct (Z.eqb_spec a k'), (Z.eqb_spec k k'); try reflexivity; congruence.
Qed.
Lemma ix_lookup_insert m k p k' : ix_lookup (ix_insert m k p) k' = if k =? k' then Some p else ix_lookup m k'.
Proof.
  unfold ix_insert. cbn [ix_lookup]. rewrite ix_lookup_erase. destruct (Z.eqb_spec k k'); reflexivity.
Qed.

(** ** Lists of nodes *)
Lemma Forall2_nth (A B : Type) (R : A -> B -> Prop) l m i x : Forall2 R l m -> nth_error l i = Some x ->
  exists y, nth_error m i = Some y /\ R x y.
Proof.
  intros F. revert i. induction F as [|a b l m H F IH]; intros [|i] E; try discriminate; cbn [nth_error] in *.
  - injection E as <-. eauto.
  - now apply IH.
Qed.
Lemma Forall2_lset (A B : Type) (R : A -> B -> Prop) l m : Forall2 R l m -> forall i x y l' m', R x y ->
  lset l i x = Some l' -> lset m i y = Some m' -> Forall2 R l' m'.
Proof.
  induction 1 as [|a b l m H F IH]; intros [|i] x y l' m' Hxy E1 E2; cbn [lset] in *; try discriminate.
  - injection E1 as <-. injection E2 as <-. now constructor.
  - destruct (lset l i x) as [l1|] eqn:F1; [|discriminate]. destruct (lset m i y) as [m1|] eqn:F2; [|discriminate].
    injection E1 as <-. injection E2 as <-. constructor; [exact H|]. eapply IH; eauto.
Qed.

Section Table.
Variables (P : params) (dv : Z -> Prop).
Hypothesis HP : params_ok P dv.
Notation cs := (cols P).
Notation pages := (pages_of (cols P)).
Notation top_value := (2 ^ Z.of_nat (num_bins (dims P)) - 1).

Lemma lay : layout cs pages.
Proof. apply pages_layout. apply (p_len HP). Qed.

(** ** The clustering value *)
Definition xv (t : tuple) : Z := match xtr P t with Ok v => v | _ => 0 end.

Lemma bins_le : (num_bins (dims P) <= 32)%nat.
Proof. rewrite num_bins_total. apply (p_bits HP). Qed.

Lemma top_range : 0 <= top_value < 4294967296.
Proof.
  pose proof bins_le as B. set (n := num_bins (dims P)) in *. clearbody n.
  assert (2 ^ Z.of_nat n <= 2 ^ 32) by (apply Z.pow_le_mono_r; lia).
  assert (0 < 2 ^ Z.of_nat n) by (apply Z.pow_pos_nonneg; lia). lia.
Qed.

Lemma xtr_ok t : xtr P t = Ok (xv t).
Proof.
  unfold xv, xtr. destruct (@bdcc_exists (neg P) (dims P) (map (as_int P) t) (p_bits HP)) as (y & ->).
  { eapply Forall_impl; [|exact (p_dims HP)]. intros d H. exact H. }
  reflexivity.
Qed.
Lemma xv_range t : 0 <= xv t <= top_value.
Proof.
  pose proof (xtr_ok t) as E. unfold xtr in E.
  destruct (bdcc_value (Some (neg P)) (dims P) (map (as_int P) t)) as [y| |] eqn:Ey; cbn [bind] in E; try discriminate.
  injection E as <-. apply bdcc_below in Ey; [|apply (p_bits HP)].
  set (n := num_bins (dims P)) in *. clearbody n.
  assert (Z.of_N y < Z.of_N (2 ^ N.of_nat n)) by lia. rewrite N2Z.inj_pow, nat_N_Z in H. change (Z.of_N 2) with 2 in H. lia.
Qed.

(** ** What the nodes hold *)
Record gnode := G { glo : Z; ghi : Z; grows : list tuple; gdel : list nat }.

Definition keyz (t : tuple) : Z := match nth_error t (kc P) with Some (AInt z) => z | _ => 0 end.
Definition trow (t : tuple) : Prop := row_ok P dv (keyz t) t.

Lemma row_key k t : row_ok P dv k t -> keyz t = k.
Proof. intros (_ & E & _). unfold keyz. now rewrite E. Qed.
Lemma row_trow k t : row_ok P dv k t -> trow t.
Proof. intros H. unfold trow. now rewrite (row_key H). Qed.

Record noderep (g : gnode) (n : node) : Prop := Noderep {
  n_b : brep (dlt P) dv cs pages (glo g) (ghi g) (grows g) (blk n);
  n_del : del n = map Z.of_nat (gdel g);
  n_sum : bsum n = zsum (map xv (grows g));
  n_rng : 0 <= glo g <= ghi g /\ ghi g <= top_value;
  n_rows : Forall (fun t => trow t /\ glo g <= xv t <= ghi g) (grows g);
  n_dl : NoDup (gdel g) /\ Forall (fun j => (j < length (grows g))%nat) (gdel g)
}.

Lemma range_of_ok g n : noderep g n -> range_of n = Ok (glo g, ghi g).
Proof.
  intros H. pose proof top_range. pose proof (n_rng H) as R. unfold range_of.
  rewrite (u32_reg (r_lo (n_b H))) by lia. cbn [bind]. rewrite (u32_reg (r_hi (n_b H))) by lia. reflexivity.
Qed.

Lemma few_rows g n : noderep g n -> 2 * Z.of_nat (length (grows g)) <= 32768.
Proof. intros H. exact (rows_few lay (r_fits (n_b H)) (p_ne HP)). Qed.

Definition offs (rows : list tuple) (j : nat) : list Z := offs_of cs pages rows j.
Lemma offs_app rows t j : (j < length rows)%nat -> offs (rows ++ [t]) j = offs rows j.
Proof. apply offs_from_app. Qed.

Definition addrow (g : gnode) (t : tuple) : gnode := G (glo g) (ghi g) (grows g ++ [t]) (gdel g).

(** insertTuple *)
Lemma insert_tuple_spec gs t i g key tp :
  Forall2 noderep gs (nodes t) -> nth_error gs i = Some g -> trow tp -> fits cs pages (grows g ++ [tp]) ->
  glo g <= xv tp <= ghi g ->
  exists t' gs', insert_tuple P t key tp i = Ok t' /\ lset gs i (addrow g tp) = Some gs' /\
    Forall2 noderep gs' (nodes t') /\ chain t' = chain t /\
    index t' = ix_insert (index t) key (PTuple i (offs (grows g ++ [tp]) (length (grows g)))).
Proof.
  intros F Eg Ht Hf Hx. destruct (Forall2_nth F Eg) as (n & En & Hn).
  unfold insert_tuple, node_at. rewrite En. cbn [of_opt bind].
  destruct (@block_insert_spec (dlt P) dv (p_dbl HP) cs pages (glo g) (ghi g) (grows g) tp (blk n))
    as (b & Eb & Hb); auto; [apply (p_ne HP)|apply lay|apply (n_b Hn)|apply Ht|].
  rewrite Eb. cbn [bind]. rewrite xtr_ok. cbn [bind]. unfold set_node.
  assert (Li : (i < length gs)%nat) by (apply nth_error_Some; congruence).
  assert (Ln : (i < length (nodes t))%nat) by (apply nth_error_Some; congruence).
  destruct (@lset_some _ _ _ (Node b (del n) (bsum n + xv tp)) Ln) as (l & El). rewrite El. cbn [of_opt bind].
  destruct (@lset_some _ _ _ (addrow g tp) Li) as (gs' & Eg'). 
  eexists _, gs'. split; [reflexivity|]. splits; [exact Eg'| |reflexivity|reflexivity].
  cbn [nodes]. eapply Forall2_lset; [exact F| |exact Eg'|exact El].
  split; cbn [glo ghi grows gdel addrow blk del bsum].
  - exact Hb.
  - apply (n_del Hn).
  - rewrite (n_sum Hn), map_app, zsum_app. cbn. lia.
  - apply (n_rng Hn).
  - apply Forall_app. split; [apply (n_rows Hn)|auto].
  - split; [apply (n_dl Hn)|]. eapply Forall_impl; [|apply (n_dl Hn)]. intros j Hj. cbn beta in Hj. cbn [addrow grows]. rewrite app_length. cbn [length]. clear - Hj. lia.
Qed.

(** ** The index and the rows *)
Definition entry := (nat * nat * tuple)%type.
Definition ekey (e : entry) : Z := keyz (snd e).
Definition entry_ok (gs : list gnode) (ix : list (Z * ptuple)) (e : entry) : Prop :=
  let '(i, j, t) := e in
  exists g, nth_error gs i = Some g /\ nth_error (grows g) j = Some t /\
    ix_lookup ix (keyz t) = Some (PTuple i (offs (grows g) j)).
Definition ixok (gs : list gnode) (ix : list (Z * ptuple)) (es : list entry) : Prop :=
  Forall (entry_ok gs ix) es /\ NoDup (map ekey es) /\ forall k p, ix_lookup ix k = Some p -> In k (map ekey es).

Lemma ixok_perm gs ix es es' : Permutation es es' -> ixok gs ix es -> ixok gs ix es'.
Proof.
  intros Pm (F & N & H). unfold ixok. splits.
  - eapply Permutation_Forall; eauto.
  - eapply Permutation_NoDup; [|exact N]. now apply Permutation_map.
  - intros k p E. eapply Permutation_in; [apply Permutation_map; exact Pm|]. eapply H; eauto.
Qed.

Lemma ixok_erase gs ix e es : ixok gs ix (e :: es) -> ixok gs (ix_erase ix (ekey e)) es.
Proof.
  intros (F & N & H). inversion F as [|? ? _ Fe]; subst. cbn [map] in N. inversion N as [|? ? Ni Ne]; subst. unfold ixok. splits.
  - rewrite Forall_forall in *. intros [[i j] t] I. specialize (Fe _ I). destruct Fe as (g & Eg & Et & El).
    exists g. splits; auto. rewrite ix_lookup_erase. destruct (Z.eqb_spec (ekey e) (keyz t)) as [E|]; [|exact El].
    exfalso. apply Ni. rewrite E. apply in_map_iff. exists (i, j, t). auto.
  - exact Ne.
  - intros k p. rewrite ix_lookup_erase. destruct (Z.eqb_spec (ekey e) k) as [|Nk]; [discriminate|]. intros E.
    destruct (H _ _ E) as [C|I]; [congruence|exact I].
Qed.

Lemma ixok_insert gs ix es i g gs' tp : ixok gs ix es -> nth_error gs i = Some g -> lset gs i (addrow g tp) = Some gs' ->
  ~ In (keyz tp) (map ekey es) ->
  ixok gs' (ix_insert ix (keyz tp) (PTuple i (offs (grows g ++ [tp]) (length (grows g)))))
       ((i, length (grows g), tp) :: es).
Proof.
  intros (F & N & H) Eg El Nk. unfold ixok. splits.
  - constructor.
    + exists (addrow g tp). splits.
      * rewrite (lset_nth _ El), Nat.eqb_refl. reflexivity.
      * cbn [grows addrow]. rewrite nth_error_app2, Nat.sub_diag by lia. reflexivity.
      * rewrite ix_lookup_insert, Z.eqb_refl. reflexivity.
    + rewrite Forall_forall in *. intros [[i' j'] t'] I. specialize (F _ I). destruct F as (g' & Eg' & Et' & El').
      assert (NE : keyz tp <> keyz t').
      { intros E. apply Nk. rewrite E. apply in_map_iff. exists (i', j', t'). auto. }
      destruct (Nat.eq_dec i' i) as [->|Ni].
      * rewrite Eg in Eg'. injection Eg' as <-. exists (addrow g tp).
        assert (J : (j' < length (grows g))%nat) by (apply nth_error_Some; congruence). splits.
        -- rewrite (lset_nth _ El), Nat.eqb_refl. reflexivity.
        -- cbn [grows addrow]. now rewrite nth_error_app1.
        -- rewrite ix_lookup_insert. destruct (Z.eqb_spec (keyz tp) (keyz t')); [congruence|].
           rewrite El'. cbn [grows addrow]. now rewrite offs_app.
      * exists g'. splits; [|exact Et'|].
        -- rewrite (lset_nth _ El). destruct (Nat.eqb_spec i' i); [congruence|exact Eg'].
        -- rewrite ix_lookup_insert. destruct (Z.eqb_spec (keyz tp) (keyz t')); [congruence|exact El'].
  - cbn [map]. constructor; [exact Nk|exact N].
  - intros k p. rewrite ix_lookup_insert. cbn [map]. destruct (Z.eqb_spec (keyz tp) k) as [E|]; [intros _; left; exact E|].
    intros E. right. eapply H; eauto.
Qed.

(** The rows of a node that are not deleted. *)
Fixpoint nlocs (i j : nat) (rows : list tuple) (dl : list nat) : list entry :=
  match rows with
  | [] => []
  | t :: r => (if existsb (Nat.eqb j) dl then [] else [(i, j, t)]) ++ nlocs i (S j) r dl
  end.
Definition locs_at (gs : list gnode) (i : nat) : list entry :=
  match nth_error gs i with Some g => nlocs i 0 (grows g) (gdel g) | None => [] end.
Definition all_locs (gs : list gnode) (c : list nat) : list entry := flat_map (locs_at gs) c.

Lemma nlocs_app i rows : forall j t dl, existsb (Nat.eqb (j + length rows)) dl = false ->
  nlocs i j (rows ++ [t]) dl = nlocs i j rows dl ++ [(i, (j + length rows)%nat, t)].
Proof.
  induction rows as [|r rows IH]; intros j t dl H; cbn [nlocs app length] in *.
  - rewrite Nat.add_0_r in *. now rewrite H.
  - rewrite IH by (now rewrite Nat.add_succ_comm). rewrite Nat.add_succ_comm, app_assoc. reflexivity.
Qed.

Lemma nlocs_in i rows : forall j dl a b t, In (a, b, t) (nlocs i j rows dl) -> a = i /\ (j <= b)%nat /\ nth_error rows (b - j) = Some t /\
  ~ In b dl.
Proof.
  induction rows as [|r rows IH]; intros j dl a b t H; cbn [nlocs] in H; [contradiction|].
  apply in_app_or in H. destruct H as [H|H].
  - destruct (existsb (Nat.eqb j) dl) eqn:E; [contradiction|]. destruct H as [H|[]]. injection H as <- <- <-.
    splits; [reflexivity|lia|now rewrite Nat.sub_diag|]. intros I. assert (existsb (Nat.eqb j) dl = true).
    { apply existsb_exists. exists j. split; [exact I|apply Nat.eqb_refl]. } congruence.
  - apply IH in H. destruct H as (-> & H1 & H2 & H3). splits; [reflexivity|lia| |exact H3].
    replace (b - j)%nat with (S (b - S j)) by lia. exact H2.
Qed.

Lemma nlocs_has i rows : forall j dl k t, nth_error rows k = Some t -> ~ In (j + k)%nat dl ->
  In (i, (j + k)%nat, t) (nlocs i j rows dl).
Proof.
  induction rows as [|r rows IH]; intros j dl [|k] t E N; try discriminate; cbn [nth_error nlocs] in *; apply in_or_app.
  - injection E as <-. left. rewrite Nat.add_0_r in *. destruct (existsb (Nat.eqb j) dl) eqn:X; [|now left].
    exfalso. apply N. apply existsb_exists in X. destruct X as (y & Iy & Ey). apply Nat.eqb_eq in Ey. now subst.
  - right. rewrite <- Nat.add_succ_comm in *. now apply IH.
Qed.

(** The invariant. *)
Definition rng (gs : list gnode) (i : nat) : Z * Z := match nth_error gs i with Some g => (glo g, ghi g) | None => (0, 0) end.
Record tinv (gs : list gnode) (t : table) (m : tmap) : Prop := Tinv {
  i_nodes : Forall2 noderep gs (nodes t);
  i_chain : NoDup (chain t) /\ Forall (fun i => (i < length gs)%nat) (chain t);
  i_tiles : tiles 0 top_value (map (rng gs) (chain t));
  i_ix : ixok gs (index t) (all_locs gs (chain t));
  i_map : Permutation m (map (fun e => (ekey e, snd e)) (all_locs gs (chain t)))
}.
End Table.
