(** Tables: findInsertNodeOrSplit and insert; insert ends. *)
From Coq Require Import Permutation.
From Verif Require Import Base SerModel SerProofs BdccModel BdccSpec BdccProofs BlockModel PTableModel BlockSpec
  LayoutProofs BlockBytes ColProofs InsColProofs BlockProofs InitProofs TableSpec TableProofs SplitProofs.
Open Scope Z_scope.

Section Insert.
Variables (P : params) (dv : Z -> Prop).
Hypothesis HP : params_ok P dv.
Notation cs := (cols P).
Notation pages := (pages_of (cols P)).
Notation top_value := (2 ^ Z.of_nat (num_bins (dims P)) - 1).
Notation noderep := (noderep P dv).
Notation tinv := (tinv P dv).
Notation trow := (trow P dv).
Notation xv := (xv P).

Definition enough (g : gnode) (tp : tuple) : Prop := buf_size tp <= room cs (grows g) /\ fits cs pages (grows g ++ [tp]).
Definition holds (gs : list gnode) (v : Z) (i : nat) : Prop := fst (rng gs i) <= v <= snd (rng gs i).

Lemma enough_empty g tp : trow tp -> grows g = [] -> enough g tp.
Proof.
  intros (_ & _ & _ & F & B) E. unfold enough. rewrite E. cbn [app]. split; [|exact F].
  unfold room. assert (U : columns_used (length cs) [] = 0).
  { unfold columns_used. generalize (length cs). intros n. induction (seq 0 n) as [|x l IH]; [reflexivity|].
    cbn [map]. rewrite zsum_cons, IH. reflexivity. }
  rewrite U. lia.
Qed.

Lemma tiles_above lo hi rs : tiles lo hi rs -> Forall (fun r => lo <= fst r) rs.
Proof.
  revert lo; induction rs as [|(a, b) r IH]; intros lo H; [constructor|].
  destruct r as [|(c, d) r]; [cbn [tiles] in H; constructor; [cbn; lia|constructor]|].
  apply tiles_cons in H. destruct H as (-> & H1 & H2 & H3). constructor; [cbn; lia|].
  eapply Forall_impl; [|apply (IH _ H3)]. cbn. lia.
Qed.

Lemma rng_at gs i g : nth_error gs i = Some g -> rng gs i = (glo g, ghi g).
Proof. intros E. unfold rng. now rewrite E. Qed.

Section At.
Variables (gs : list gnode) (t : table).
Hypothesis F : Forall2 noderep gs (nodes t).

Lemma at_node i : (i < length gs)%nat -> exists g n, nth_error gs i = Some g /\ node_at t i = Ok n /\ noderep g n /\
  range_of n = Ok (rng gs i).
Proof.
  intros Hi. destruct (nth_error gs i) as [g|] eqn:Eg; [|apply nth_error_None in Eg; lia].
  destruct (Forall2_nth F Eg) as (n & En & Hn). exists g, n. unfold node_at. rewrite En. splits; auto.
  rewrite (rng_at Eg). exact (range_of_ok HP Hn).
Qed.

Lemma find_node_spec v c : forall lo, tiles lo top_value (map (rng gs) c) -> Forall (fun i => (i < length gs)%nat) c ->
  lo <= v <= top_value ->
  exists c1 i c2, c = c1 ++ i :: c2 /\ find_node t c v = Ok (i :: c2) /\ holds gs v i /\ Forall (fun j => ~ holds gs v j) c1 /\
    tiles (fst (rng gs i)) top_value (map (rng gs) (i :: c2)).
Proof.
  induction c as [|i c IH]; intros lo T B V; [contradiction|].
  inversion B as [|? ? Bi Bc]; subst. destruct (at_node Bi) as (g & n & Eg & En & Hn & Er).
  cbn [find_node map] in *. rewrite En. cbn [bind]. rewrite Er. cbn [bind].
  destruct (rng gs i) as (a, b) eqn:Ei. cbn [fst snd]. pose proof (tiles_head T) as (-> & Hab).
  destruct ((lo <=? v) && (v <=? b)) eqn:Q.
  - exists [], i, c. cbn [app map]. splits; auto; unfold holds; rewrite ?Ei; cbn [fst snd]; try exact T; lia.
  - assert (Hv : b < v) by lia. destruct c as [|k c]; [cbn [map tiles] in T; lia|].
    cbn [map] in T. destruct (rng gs k) as (c0, d0) eqn:Ek. apply tiles_cons in T. destruct T as (_ & _ & T1 & T2).
    destruct (IH c0) as (c1 & i' & c2 & E1 & E2 & E3 & E4 & E5); auto; [cbn [map]; rewrite Ek; exact T2|lia|].
    exists (i :: c1), i', c2. splits; auto.
    + rewrite E1. reflexivity.
    + constructor; [|exact E4]. unfold holds. rewrite Ei. cbn. lia.
Qed.

Lemma space_at i tp : (i < length gs)%nat -> trow tp -> exists g n r, nth_error gs i = Some g /\ node_at t i = Ok n /\
  range_of n = Ok (rng gs i) /\ has_enough_space cs (blk n) tp = Ok r /\ (r = true <-> enough g tp).
Proof.
  intros Hi Ht. destruct (at_node Hi) as (g & n & Eg & En & Hn & Er).
  destruct (has_enough_space_spec (p_ne HP) (n_b Hn) (lay HP) (proj1 Ht)) as (r & E & Hr).
  exists g, n, r. splits; auto.
Qed.

Definition full_at (tp : tuple) (full : bool) (i : nat) : Prop :=
  exists g, nth_error gs i = Some g /\ (full = false <-> enough g tp).

Lemma skip_full_spec tp c : forall i full, trow tp -> tiles (fst (rng gs i)) top_value (map (rng gs) (i :: c)) ->
  Forall (fun i => (i < length gs)%nat) (i :: c) -> full_at tp full i ->
  exists j full', skip_full P t tp (i :: c) (rng gs i) full = Ok (j, rng gs j, full') /\ In j (i :: c) /\ full_at tp full' j /\
    fst (rng gs i) <= fst (rng gs j) /\
    (j <> i -> full = true /\ fst (rng gs i) = snd (rng gs i)) /\
    (holds gs (snd (rng gs i)) j \/ snd (rng gs i) < fst (rng gs j)) /\
    (fst (rng gs i) < snd (rng gs i) -> j = i /\ full' = full) /\
    (fst (rng gs i) = snd (rng gs i) -> full = true -> full' = true \/ snd (rng gs i) < fst (rng gs j) ->
      forall k, In k (i :: c) -> holds gs (snd (rng gs i)) k -> fst (rng gs k) = snd (rng gs k) /\ full_at tp true k).
Proof.
  induction c as [|k c IH]; intros i full Ht T B HF.
  - exists i, full. cbn [skip_full]. pose proof T as T'. cbn [map] in T'. destruct (rng gs i) as (a, b) eqn:Ei. cbn [fst snd] in *.
    pose proof (tiles_head T') as (_ & Hab). splits; auto; try (left; reflexivity); try lia; try congruence.
    + left. unfold holds. rewrite Ei. cbn. lia.
    + intros E Hf _ j [<-|[]] _. rewrite Ei. cbn [fst snd]. split; [lia|now rewrite Hf in HF].
  - inversion B as [|? ? Bi Bk]; subst. pose proof T as T'. cbn [map] in T'.
    destruct (rng gs i) as (a, b) eqn:Ei. destruct (rng gs k) as (a', b') eqn:Ek. cbn [fst snd] in *.
    apply tiles_cons in T'. destruct T' as (_ & Hab & T1 & T2).
    cbn [skip_full fst snd]. fold (skip_full P t tp).
    destruct (Z.eqb_spec a b) as [E|E]; [destruct full|]; cbn [andb].
    + subst b. inversion Bk as [|? ? Bk' _]; subst. destruct (space_at Bk' Ht) as (g & n & r & Eg & En & Er & Es & Hr).
      rewrite En. cbn [bind]. rewrite Er. cbn [bind]. rewrite Es. cbn [bind].
      assert (Tk : tiles (fst (rng gs k)) top_value (map (rng gs) (k :: c))) by (cbn [map]; rewrite Ek; exact T2).
      assert (FK : full_at tp (negb r) k) by (exists g; split; [exact Eg|]; rewrite <- Hr; destruct r; cbn; split; congruence).
      assert (IH' := IH k (negb r) Ht Tk Bk FK).
      destruct IH' as (j & full' & E1 & E2 & E3 & E4 & E5 & E6 & E7 & E8).
      rewrite Ek in *. cbn [fst snd] in *.
      exists j, full'. splits; auto; try lia.
      * right. exact E2.
      * destruct T1 as [->|(-> & ->)]; [right; lia|exact E6].
      * intros _ _ Q k' [<-|Ik'] Hh.
        -- rewrite Ei. cbn [fst snd]. split; [lia|exact HF].
        -- destruct T1 as [->|(-> & ->)].
           { exfalso. pose proof (tiles_above Tk) as TA. rewrite Forall_forall in TA. specialize (TA (rng gs k') (in_map _ _ _ Ik')).
             unfold holds in Hh. cbn [fst snd] in TA. lia. }
           apply E8; auto. destruct r; [|reflexivity]. exfalso. cbn [negb] in *.
           destruct (Nat.eq_dec j k) as [->|Nj]; [|destruct (E5 Nj); congruence].
           rewrite Ek in Q. cbn [fst snd] in Q. destruct Q as [Q|Q]; [|lia]. subst full'.
           destruct E3 as (g' & Eg' & Hg'). rewrite Eg in Eg'. injection Eg' as <-. destruct Hg' as (_ & Hg'). specialize (Hg' (proj1 Hr eq_refl)). discriminate.
    + assert (H : holds gs b i) by (unfold holds; rewrite Ei; cbn; lia).
      exists i, false. splits; auto; rewrite ?Ei; cbn [fst snd]; try lia; try congruence; try (left; reflexivity).
    + assert (H : holds gs b i) by (unfold holds; rewrite Ei; cbn; lia).
      exists i, full. splits; auto; rewrite ?Ei; cbn [fst snd]; try lia; try congruence; try (left; reflexivity).
Qed.
End At.

(** findInsertNodeOrSplit: the node it finds can take the row, or must be split. *)
Lemma find_insert_spec gs t m tp : tinv gs t m -> trow tp ->
  exists c i g full, find_node t (chain t) (xv tp) = Ok c /\ find_insert P t tp c = Ok (i, full) /\ In i (chain t) /\
    nth_error gs i = Some g /\ glo g <= xv tp <= ghi g /\ (full = false <-> enough g tp) /\
    (full = true ->
      (glo g < ghi g /\ exists c1 c2, chain t = c1 ++ i :: c2 /\ Forall (fun j => ~ holds gs (xv tp) j) c1) \/
      (glo g = ghi g /\ forall k, In k (chain t) -> holds gs (xv tp) k -> fst (rng gs k) = snd (rng gs k) /\ full_at gs tp true k)).
Proof.
  intros I Ht. destruct I as [F (ND & B) T _ _]. pose proof (xv_range HP tp) as XR.
  destruct (find_node_spec F (v := xv tp) T B XR) as (c1 & i & c2 & Ec & En & Hi & Hc1 & Ti).
  rewrite En. exists (i :: c2). unfold find_insert. cbn [hd_error of_opt bind].
  assert (Bi : Forall (fun i => (i < length gs)%nat) (i :: c2)) by (rewrite Ec in B; apply Forall_app in B; tauto).
  destruct (space_at F (Forall_inv Bi) Ht) as (g & n & r & Eg & Ea & Er & Es & Hr).
  rewrite Ea. cbn [bind]. rewrite Er. cbn [bind]. rewrite Es. cbn [bind].
  assert (FI : full_at gs tp (negb r) i) by (exists g; split; [exact Eg|]; rewrite <- Hr; destruct r; cbn; split; congruence).
  destruct (skip_full_spec F (tp := tp) Ht Ti Bi FI) as (j & full' & E1 & E2 & E3 & E4 & E5 & E6 & E7 & E8).
  rewrite E1. cbn [bind]. rewrite (xtr_ok HP tp). cbn [bind].
  assert (Hi' := Hi). unfold holds in Hi'. rewrite (rng_at Eg) in Hi', E4, E5, E6, E7, E8. cbn [fst snd] in *.
  assert (Inc : forall k, In k (i :: c2) -> In k (chain t)) by (intros k Hk; rewrite Ec; apply in_or_app; now right).
  assert (C1 : forall k, In k (chain t) -> holds gs (xv tp) k -> In k (i :: c2)).
  { intros k Hk Hh. rewrite Ec in Hk. apply in_app_or in Hk. destruct Hk as [Hk|Hk]; [|exact Hk].
    exfalso. rewrite Forall_forall in Hc1. now apply (Hc1 k). }
  destruct (Z.ltb_spec (xv tp) (fst (rng gs j))) as [L|L].
  - assert (Nj : j <> i) by (intros ->; rewrite (rng_at Eg) in L; cbn [fst] in L; lia).
    destruct (E5 Nj) as (Er' & El). assert (Ex : xv tp = ghi g) by lia. rewrite Er' in *.
    exists i, g, true. splits; auto; try lia.
    + apply Inc. now left.
    + destruct FI as (g0 & Eg0 & H0). rewrite Eg in Eg0. injection Eg0 as <-. exact H0.
    + intros _. right. split; [exact El|]. intros k Hk Hh. apply E8; auto; [right; lia|now rewrite <- Ex].
  - destruct E3 as (gj & Ej & Hj). exists j, gj, full'. splits; auto.
    + destruct (Nat.eq_dec j i) as [->|Nj].
      * rewrite Eg in Ej. injection Ej as <-. lia.
      * destruct (E5 Nj) as (_ & El). unfold holds in E6. rewrite (rng_at Ej) in *. cbn [fst snd] in *. lia.
    + destruct (Nat.eq_dec j i) as [->|Nj].
      * rewrite Eg in Ej. injection Ej as <-. lia.
      * destruct (E5 Nj) as (_ & El). unfold holds in E6. rewrite (rng_at Ej) in *. cbn [fst snd] in *. lia.
    + intros ->. destruct (Z_lt_ge_dec (glo g) (ghi g)) as [Lt|Ge].
      * destruct (E7 Lt) as (-> & _). rewrite Eg in Ej. injection Ej as <-. left. split; [exact Lt|]. now exists c1, c2.
      * assert (El : glo g = ghi g) by lia. assert (Ex : xv tp = ghi g) by lia. right.
        assert (FT : negb r = true).
        { destruct (Nat.eq_dec j i) as [->|Nj]; [|now apply E5]. rewrite Eg in Ej. injection Ej as <-.
          destruct FI as (g0 & Eg0 & H0). rewrite Eg in Eg0. injection Eg0 as <-.
          destruct (negb r); [reflexivity|]. exfalso. destruct Hj as (_ & Hj). destruct H0 as (H0 & _). specialize (Hj (H0 eq_refl)). discriminate. }
        assert (ALL : forall k, In k (chain t) -> holds gs (xv tp) k -> fst (rng gs k) = snd (rng gs k) /\ full_at gs tp true k).
        { intros k Hk Hh. apply E8; auto. now rewrite <- Ex. }
        split; [|exact ALL]. destruct (ALL j) as (Q & _); [auto| |].
        -- destruct (Nat.eq_dec j i) as [->|Nj]; [exact Hi|]. rewrite Ex. unfold holds in *. lia.
        -- rewrite (rng_at Ej) in Q. exact Q.
Qed.

(** insert, the last step *)
Lemma tinv_insert gs t m i g k tp : tinv gs t m -> In i (chain t) -> nth_error gs i = Some g -> row_ok P dv k tp ->
  glo g <= xv tp <= ghi g -> enough g tp -> ~ In k (map fst m) ->
  exists gs' t', insert_tuple P t k tp i = Ok t' /\ tinv gs' t' ((k, tp) :: m).
Proof.
  intros [F (ND & B) T IX IM] Hi Eg Hr Hx (_ & He) Nk.
  destruct (insert_tuple_spec HP k F Eg (row_trow Hr) He Hx) as (t' & gs' & E & El & F' & C' & I').
  exists gs', t'. split; [exact E|].
  assert (LEN : length gs' = length gs) by (eapply lset_length; eauto).
  destruct (Forall2_nth F Eg) as (n & En & Hn).
  assert (SAME : forall j, j <> i -> nth_error gs' j = nth_error gs j).
  { intros j Hj. rewrite (lset_nth j El). destruct (Nat.eqb_spec j i); [congruence|reflexivity]. }
  assert (NEW : nth_error gs' i = Some (addrow g tp)) by (rewrite (lset_nth i El), Nat.eqb_refl; reflexivity).
  pose proof (row_key Hr) as EK.
  assert (PERM : Permutation (all_locs gs' (chain t)) ((i, length (grows g), tp) :: all_locs gs (chain t))).
  { destruct (in_split _ _ Hi) as (c1 & c2 & Ec). rewrite Ec in ND |- *. apply NoDup_remove_2 in ND. rewrite in_app_iff in ND.
    rewrite !all_locs_app. rewrite (@all_locs_same gs gs' c1) by (intros j Hj; apply SAME; intros ->; tauto).
    assert (A1 : all_locs gs (i :: c2) = nlocs i 0 (grows g) (gdel g) ++ all_locs gs c2) by (cbn [all_locs flat_map]; unfold locs_at at 1; now rewrite Eg).
    assert (A2 : all_locs gs' (i :: c2) = (nlocs i 0 (grows g) (gdel g) ++ [(i, length (grows g), tp)]) ++ all_locs gs c2).
    { cbn [all_locs flat_map]. unfold locs_at at 1. rewrite NEW. cbn [addrow grows gdel]. f_equal.
      - rewrite nlocs_app; [reflexivity|].
        cbn [Nat.add]. destruct (existsb (Nat.eqb (length (grows g))) (gdel g)) eqn:X; [|reflexivity]. exfalso.
        apply existsb_exists in X. destruct X as (y & Iy & Ey). apply Nat.eqb_eq in Ey. subst y.
        pose proof (proj2 (n_dl Hn)) as DL. rewrite Forall_forall in DL. specialize (DL _ Iy). lia.
      - apply all_locs_same. intros j Hj. apply SAME. intros ->. tauto. }
    rewrite A1, A2. apply perm_mid. }
  assert (NK : ~ In (keyz P tp) (map (ekey P) (all_locs gs (chain t)))).
  { rewrite EK. intros H. apply Nk. eapply Permutation_in; [apply Permutation_map; apply Permutation_sym; exact IM|].
    rewrite map_map. cbn [fst]. exact H. }
  split; rewrite ?C'; auto.
  - split; [exact ND|]. now rewrite LEN.
  - rewrite (map_ext_in (rng gs') (rng gs)); [exact T|]. intros j _. unfold rng. destruct (Nat.eq_dec j i) as [->|Nj].
    + now rewrite NEW, Eg.
    + now rewrite SAME.
  - eapply ixok_perm; [symmetry; exact PERM|]. rewrite I'. rewrite <- EK. eapply ixok_insert; eauto.
  - eapply Permutation_trans; [|apply Permutation_map; symmetry; exact PERM]. cbn [map]. unfold ekey at 1. cbn [snd]. rewrite EK.
    now apply perm_skip.
Qed.

(** What is left to split: over the blocks that can hold [v], rows squared plus width of the range. *)
Definition w_at (gs : list gnode) (v : Z) (i : nat) : Z :=
  let r := rng gs i in
  if (fst r <=? v) && (v <=? snd r)
  then match nth_error gs i with Some g => Z.of_nat (length (grows g)) * Z.of_nat (length (grows g)) | None => 0 end + (snd r - fst r)
  else 0.
Definition pot (gs : list gnode) (v : Z) (c : list nat) : Z := zsum (map (w_at gs v) c).

Lemma w_at_nonneg gs v i : 0 <= w_at gs v i.
Proof.
  unfold w_at. cbn zeta. destruct ((fst (rng gs i) <=? v) && (v <=? snd (rng gs i))) eqn:E; [|lia].
  destruct (nth_error gs i) as [g|]; nia.
Qed.
Lemma pot_nonneg gs v c : 0 <= pot gs v c.
Proof. unfold pot. induction c as [|i c IH]; [cbn; lia|]. cbn [map]. rewrite zsum_cons. pose proof (@w_at_nonneg gs v i). lia. Qed.
Lemma pot_same gs gs' v c : (forall i, In i c -> nth_error gs' i = nth_error gs i) -> pot gs' v c = pot gs v c.
Proof.
  intros H. unfold pot. f_equal. apply map_ext_in. intros i Hi. unfold w_at, rng. now rewrite (H i Hi).
Qed.
Lemma pot_app gs v c c' : pot gs v (c ++ c') = pot gs v c + pot gs v c'.
Proof. unfold pot. now rewrite map_app, zsum_app. Qed.
Lemma w_at_some gs v i g : nth_error gs i = Some g ->
  w_at gs v i = if (glo g <=? v) && (v <=? ghi g) then Z.of_nat (length (grows g)) * Z.of_nat (length (grows g)) + (ghi g - glo g) else 0.
Proof. intros E. unfold w_at. rewrite (rng_at E), E. reflexivity. Qed.

Lemma first_unique (Q : nat -> Prop) c1 i c2 d1 j d2 : c1 ++ i :: c2 = d1 ++ j :: d2 -> Forall (fun x => ~ Q x) c1 -> Forall (fun x => ~ Q x) d1 ->
  Q i -> Q j -> c1 = d1 /\ i = j.
Proof.
  revert d1; induction c1 as [|x c1 IH]; intros [|y d1] E F1 F2 Qi Qj; cbn [app] in E; injection E as <- E; auto.
  - inversion F2; contradiction.
  - inversion F1; contradiction.
  - inversion F1; inversion F2; subst. destruct (IH d1 E) as (-> & ->); auto.
Qed.

Theorem insert_spec k tp : row_ok P dv k tp -> forall n gs t m, tinv gs t m -> ~ In k (map fst m) ->
  pot gs (xv tp) (chain t) < Z.of_nat n ->
  exists F gs' t', tinv gs' t' ((k, tp) :: m) /\ forall f, (F <= f)%nat -> insert P f t k tp = Ok t'.
Proof.
  intros Hr. pose proof (row_trow Hr) as Ht. induction n as [|n IH]; intros gs t m I Nk Hp.
  { pose proof (@pot_nonneg gs (xv tp) (chain t)). lia. }
  assert (DONE : forall i g c, find_node t (chain t) (xv tp) = Ok c -> find_insert P t tp c = Ok (i, false) -> In i (chain t) ->
     nth_error gs i = Some g -> glo g <= xv tp <= ghi g -> enough g tp ->
     exists F gs' t', tinv gs' t' ((k, tp) :: m) /\ forall f, (F <= f)%nat -> insert P f t k tp = Ok t').
  { intros i g c E1 E2 Hi Eg Hx He. destruct (tinv_insert I Hi Eg Hr Hx He Nk) as (gs' & t' & E & I').
    exists 1%nat, gs', t'. split; [exact I'|]. intros [|f] Hf; [lia|]. cbn [insert]. rewrite (xtr_ok HP tp). cbn [bind].
    rewrite E1. cbn [bind]. rewrite E2. cbn [bind]. exact E. }
  destruct (find_insert_spec I Ht) as (c & i & g & full & E1 & E2 & Hi & Eg & Hx & Hf & Hfull).
  destruct full; [|destruct Hf as (Hf & _); eapply DONE; eauto]. clear DONE. specialize (Hfull eq_refl).
  assert (Nr : grows g <> []).
  { intros E0. destruct Hf as (_ & Hf). specialize (Hf (@enough_empty g tp Ht E0)). discriminate. }
  destruct (split_block_spec HP I Hi Eg Nr) as (gs1 & t1 & g1 & g2 & c1 & c2 & s & ES & I1 & EC & EC1 & SAME & N1 & N2 & CASES).
  assert (STEP : (exists F gs' t', tinv gs' t' ((k, tp) :: m) /\ forall f, (F <= f)%nat -> insert P f t1 k tp = Ok t') ->
     exists F gs' t', tinv gs' t' ((k, tp) :: m) /\ forall f, (F <= f)%nat -> insert P f t k tp = Ok t').
  { intros (F & gs' & t' & I' & E'). exists (S F), gs', t'. split; [exact I'|]. intros [|f] Hf'; [lia|]. cbn [insert].
    rewrite (xtr_ok HP tp). cbn [bind]. rewrite E1. cbn [bind]. rewrite E2. cbn [bind]. rewrite ES. cbn [bind]. apply E'. lia. }
  apply STEP. clear STEP.
  destruct (i_chain I) as (ND & B).
  assert (Bd : forall j, In j c1 \/ In j c2 -> (j < length gs)%nat).
  { rewrite Forall_forall in B. intros j Hj. apply B. rewrite EC, in_app_iff. cbn [In]. tauto. }
  assert (LN : (0 < length (grows g))%nat) by (destruct (grows g); [congruence|cbn; lia]).
  assert (P0 : pot gs (xv tp) (chain t) = pot gs (xv tp) c1 + w_at gs (xv tp) i + pot gs (xv tp) c2).
  { rewrite EC, pot_app. unfold pot at 2. cbn [map]. rewrite zsum_cons. fold (pot gs (xv tp) c2). lia. }
  assert (P1 : pot gs1 (xv tp) (chain t1) = pot gs (xv tp) c1 + w_at gs1 (xv tp) (length gs) + w_at gs1 (xv tp) (S (length gs)) + pot gs (xv tp) c2).
  { rewrite EC1, !pot_app. rewrite (@pot_same gs gs1 (xv tp) c1), (@pot_same gs gs1 (xv tp) c2) by auto.
    unfold pot at 2. cbn [map]. rewrite !zsum_cons. change (zsum []) with 0. lia. }
  rewrite (w_at_some (xv tp) Eg) in P0. rewrite (w_at_some (xv tp) N1), (w_at_some (xv tp) N2) in P1.
  replace ((glo g <=? xv tp) && (xv tp <=? ghi g)) with true in P0 by lia.
  set (a := Z.of_nat (length (grows g1))) in *. set (b := Z.of_nat (length (grows g2))) in *. set (N := Z.of_nat (length (grows g))) in *.
  destruct CASES as [(H1 & H2 & H3 & H4 & H5 & H6 & H7 & _)|(H1 & H2 & H3 & H4 & H5 & H6 & _)].
  - eapply IH; eauto. rewrite P1. rewrite P0 in Hp. rewrite H2, H3, H4, H5.
    assert (0 <= a <= N) by lia. assert (0 <= b <= N) by lia.
    assert (a * a <= N * N) by nia. assert (b * b <= N * N) by nia.
    destruct (Z.leb_spec (xv tp) s).
    + replace ((s + 1 <=? xv tp) && (xv tp <=? ghi g)) with false by lia.
      replace ((glo g <=? xv tp) && true) with true by lia. lia.
    + rewrite andb_false_r. destruct ((s + 1 <=? xv tp) && (xv tp <=? ghi g)); lia.
  - destruct (Nat.eq_dec (length (grows g)) 1) as [One|More].
    + (* the first new block is empty: the row goes there, or into another block *)
      assert (G1 : grows g1 = []) by (destruct (grows g1); [reflexivity|]; rewrite One in H5; cbn in H5; lia).
      assert (Hg1 : holds gs1 (xv tp) (length gs)) by (unfold holds; rewrite (rng_at N1); cbn [fst snd]; lia).
      assert (En1 : enough g1 tp) by (apply enough_empty; auto).
      destruct (find_insert_spec I1 Ht) as (c' & i' & g' & full' & E1' & E2' & Hi' & Eg' & Hx' & Hf' & Hfull').
      assert (FF : full' = false).
      { destruct full'; [|reflexivity]. exfalso.
        assert (NE : i' = length gs -> False).
        { intros ->. rewrite N1 in Eg'. injection Eg' as <-. destruct Hf' as (_ & Hf'). specialize (Hf' En1). discriminate. }
        assert (L1 : In (length gs) (chain t1)) by (rewrite EC1; apply in_or_app; right; left; reflexivity).
        destruct (Hfull' eq_refl) as [(Lt & d1 & d2 & Ed & Fd)|(_ & All)].
        - destruct Hfull as [(Lt0 & e1 & e2 & Ee & Fe)|(Eq0 & All)].
          + (* it is the first block that can hold the row *)
            assert (HI : holds gs (xv tp) i) by (unfold holds; rewrite (rng_at Eg); cbn; lia).
            assert (e1 = c1).
            { assert (In0 : ~ In i c1 /\ ~ In i e1).
              { split; intros X.
                - rewrite EC in ND. apply NoDup_remove_2 in ND. apply ND. apply in_or_app. now left.
                - rewrite Forall_forall in Fe. now apply (Fe i). }
              rewrite EC in Ee. destruct In0 as (In1 & In2).
              destruct (@first_unique (eq i) e1 i e2 c1 i c2) as (X & _); auto; apply Forall_forall; intros x Hxx ->; auto. }
            subst e1. apply NE.
            destruct (@first_unique (holds gs1 (xv tp)) d1 i' d2 c1 (length gs) (S (length gs) :: c2)) as (_ & ->); auto.
            * rewrite <- Ed. exact EC1.
            * rewrite Forall_forall in *. intros x Hxx X. apply (Fe x Hxx). unfold holds, rng in *. rewrite SAME in X by auto. exact X.
            * unfold holds. rewrite (rng_at Eg'). cbn. lia.
          + (* all of them are for that one value *)
            rewrite EC1 in Hi'. rewrite !in_app_iff in Hi'. cbn [In] in Hi'.
            destruct Hi' as [Hi'|[[<-|[<-|[]]]|Hi']].
            * rewrite SAME in Eg' by auto. destruct (All i') as (Q & _).
              -- rewrite EC. apply in_or_app. now left.
              -- unfold holds. rewrite (rng_at Eg'). cbn. lia.
              -- rewrite (rng_at Eg') in Q. cbn in Q. lia.
            * now apply NE.
            * rewrite N2 in Eg'. injection Eg' as <-. lia.
            * rewrite SAME in Eg' by auto. destruct (All i') as (Q & _).
              -- rewrite EC. apply in_or_app. right. now right.
              -- unfold holds. rewrite (rng_at Eg'). cbn. lia.
              -- rewrite (rng_at Eg') in Q. cbn in Q. lia.
        - destruct (All _ L1 Hg1) as (_ & g0 & Eg0 & H0). rewrite N1 in Eg0. injection Eg0 as <-. destruct H0 as (_ & H0). specialize (H0 En1). discriminate. }
      subst full'. destruct (tinv_insert I1 Hi' Eg' Hr Hx' (proj1 Hf' eq_refl) Nk) as (gs' & t' & E & I').
      exists 1%nat, gs', t'. split; [exact I'|]. intros [|f] Hff; [lia|]. cbn [insert]. rewrite (xtr_ok HP tp). cbn [bind].
      rewrite E1'. cbn [bind]. rewrite E2'. cbn [bind]. exact E.
    + eapply IH; eauto. rewrite P1. rewrite P0 in Hp. rewrite H1, H2, H3, H4.
      assert (D : Z.of_nat (length (grows g) / 2) = N / 2) by (unfold N; rewrite Nat2Z.inj_div; reflexivity).
      assert (A1 : 0 <= a <= N / 2) by lia. assert (B1 : 0 <= b <= N - N / 2) by lia. assert (N2' : 2 <= N) by lia.
      assert (a * a + b * b < N * N).
      { assert (a * a <= (N / 2) * (N / 2)) by nia. assert (b * b <= (N - N / 2) * (N - N / 2)) by nia.
        assert (1 <= N / 2 < N) by lia. nia. }
      destruct ((glo g <=? xv tp) && (xv tp <=? ghi g)); destruct ((ghi g <=? xv tp) && (xv tp <=? ghi g)); nia.
Qed.
End Insert.
