(** The wBPTree leaf as a sorted association list. *)
From Verif Require Import Base ArrLemmas MapSpec SortedList SearchModel SearchProofs RankModel
  BitmapModel BitmapProofs BTreeModel BitTreeModel FLeafProofs WbModel.
Open Scope nat_scope.

(** ** Moving slots *)
Lemma cget_app {A} (p : arr A) x q i : i = length p -> cget (p ++ x :: q) i = Ok x.
Proof. intros ->. unfold cget. rewrite nth_error_app2 by lia. now rewrite Nat.sub_diag. Qed.
Lemma cset_app {A} (p : arr A) y q x i : i = length p -> cset (p ++ y :: q) i x = Ok (p ++ x :: q).
Proof. intros ->. unfold cset. now rewrite lset_app. Qed.

Lemma move_up {A} (F : nat -> arr A -> res (arr A)) m :
  (forall i s, F i s = do x <- cget s i; cset s (i + m) x) ->
  forall X P G R hi n, length G = m -> hi = length P + length X - 1 -> n = length X ->
  exists D, for_down hi n F (P ++ X ++ G ++ R) = Ok (P ++ D ++ X ++ R) /\ length D = m.
Proof.
  intros HF. induction X as [|x X IH] using rev_ind; intros P G R hi n HG Hh Hn.
  - subst n. exists G. split; auto.
  - rewrite app_length in Hh, Hn. cbn [length] in Hh, Hn. subst n hi.
    replace (length X + 1) with (S (length X)) by lia. cbn [for_down]. rewrite HF.
    replace (P ++ (X ++ [x]) ++ G ++ R) with ((P ++ X) ++ x :: G ++ R) by now rewrite <- !app_assoc.
    rewrite cget_app by (rewrite app_length; lia). cbn [bind].
    destruct (@exists_last _ (x :: G)) as (G' & g & E); [discriminate|].
    assert (LG : length G' = m).
    { apply (f_equal (@length _)) in E. rewrite app_length in E. cbn [length] in E. lia. }
    replace ((P ++ X) ++ x :: G ++ R) with ((P ++ X ++ G') ++ g :: R).
    2:{ rewrite <- !app_assoc. do 2 f_equal. change (x :: G ++ R) with ((x :: G) ++ R). rewrite E.
        now rewrite <- app_assoc. }
    rewrite cset_app by (rewrite !app_length; lia). cbn [bind].
    destruct (IH P G' (x :: R) (length P + length X - 1) (length X)) as (D & ED & LD); auto.
    exists D. split; auto. rewrite <- !app_assoc in *. cbn [app] in *.
    destruct X as [|x0 X].
    + cbn [length for_down app] in *. injection ED as ED. now rewrite ED.
    + replace (pred (length P + S (length (x0 :: X)) - 1)) with (length P + length (x0 :: X) - 1)
        by (cbn [length]; lia). exact ED.
Qed.

Lemma move_down {A} (F : nat -> arr A -> res (arr A)) m :
  (forall i s, F i s = do x <- cget s (m + i); cset s i x) ->
  forall X P G R lo n, length G = m -> lo = length P -> n = length X ->
  exists T, for_up lo n F (P ++ G ++ X ++ R) = Ok (P ++ X ++ T) /\ length T = m + length R.
Proof.
  intros HF. induction X as [|x X IH]; intros P G R lo n HG Hl Hn; subst lo n.
  - exists (G ++ R). split; auto. rewrite app_length. lia.
  - cbn [length for_up]. rewrite HF.
    replace (P ++ G ++ (x :: X) ++ R) with ((P ++ G) ++ x :: X ++ R) by now rewrite <- !app_assoc.
    rewrite cget_app by (rewrite app_length; lia). cbn [bind].
    destruct (G ++ [x]) as [|g G'] eqn:E; [destruct G; discriminate|].
    assert (LG : length G' = m).
    { apply (f_equal (@length _)) in E. rewrite app_length in E. cbn [length] in E. lia. }
    replace ((P ++ G) ++ x :: X ++ R) with (P ++ g :: G' ++ X ++ R).
    2:{ rewrite <- !app_assoc. f_equal. change (x :: X ++ R) with ([x] ++ X ++ R).
        rewrite (app_assoc G), E. reflexivity. }
    rewrite cset_app by auto. cbn [bind].
    destruct (IH (P ++ [x]) G' R (S (length P)) (length X)) as (T & ET & LT); auto.
    { rewrite app_length. cbn [length]. lia. }
    exists T. split; auto. rewrite <- !app_assoc in ET. cbn [app] in ET. rewrite ET.
    reflexivity.
Qed.

Lemma Forall2_length {A B} (P : A -> B -> Prop) xs ys : Forall2 P xs ys -> length xs = length ys.
Proof. intros F. induction F; simpl; congruence. Qed.

Lemma app_inv_len {A} (a b c d : list A) : length a = length c -> a ++ b = c ++ d -> a = c /\ b = d.
Proof.
  revert c. induction a as [|x a IH]; intros [|y c] L E; simpl in *; try discriminate; auto.
  injection E as -> E. destruct (IH c) as [-> ->]; auto.
Qed.

(** ** The entries of a node: positions [sl] in use, holding [es] *)
Section Store.
Variables (V : Type) (M : nat).
Notation leaf := (wleaf V).

Definition ent (k : arr Z) (v : arr V) (p : nat) (e : Z * V) : Prop := aget k p = Ok (fst e) /\ aget v p = Ok (snd e).

Definition store (b : list N) (k : arr Z) (v : arr V) (sl : list nat) (es : list (Z * V)) : Prop :=
  bm_ok M b /\ length k = M /\ length v = M /\ NoDup sl /\ (forall i, bit b i = true <-> In i sl) /\
  Forall2 (ent k v) sl es.

Lemma store_len b k v sl es : store b k v sl es -> length sl = length es.
Proof. intros (_ & _ & _ & _ & _ & F). now apply Forall2_length in F. Qed.

Lemma store_lt b k v sl es p : store b k v sl es -> In p sl -> p < M.
Proof.
  intros ((_ & _ & HT) & _ & _ & _ & HB & _) Hp. apply HB in Hp.
  destruct (Nat.lt_ge_cases p M); auto. rewrite HT in Hp by auto. discriminate.
Qed.

Lemma ent_other k v k' v' u key val p e : aset k u key = Ok k' -> aset v u val = Ok v' -> p <> u ->
  ent k v p e -> ent k' v' p e.
Proof.
  intros Ek Ev NE [H1 H2]. unfold ent. rewrite (aget_aset p Ek), (aget_aset p Ev).
  destruct (Nat.eqb_spec p u); [congruence|]. auto.
Qed.

Lemma Forall2_impl_in {A B} (P Q : A -> B -> Prop) xs ys :
  (forall x y, In x xs -> P x y -> Q x y) -> Forall2 P xs ys -> Forall2 Q xs ys.
Proof.
  intros H F. induction F as [|x y xs ys HP F IH]; constructor.
  - apply H; [now left|auto].
  - apply IH. intros; apply H; [now right|auto].
Qed.

Lemma store_alloc b k v sl es key val : store b k v sl es -> length sl < M ->
  exists u b' k' v', getFreeZero b = Ok u /\ aset k u key = Ok k' /\ aset v u val = Ok v' /\
    bm_set M b u true = Ok b' /\ ~ In u sl /\ u < M /\ store b' k' v' (u :: sl) ((key, val) :: es).
Proof.
  intros (HB & LK & LV & ND & HU & HE) HL.
  destruct (getFreeZero_ok HB) as (u & Eu & Hle & Hall & Hu).
  assert (Lu : u < M).
  { destruct (Nat.lt_ge_cases u M) as [|G]; auto. exfalso. assert (u = M) as -> by lia.
    assert (M <= length sl); [|lia]. rewrite <- (seq_length M 0). apply NoDup_incl_length.
    - apply seq_NoDup.
    - intros j Hj. apply in_seq in Hj. apply HU, Hall. lia. }
  assert (NI : ~ In u sl). { intros Hi. apply HU in Hi. rewrite Hu in Hi by auto. discriminate. }
  destruct (@aset_ok _ k u key) as (k' & Ek); [lia|]. destruct (@aset_ok _ v u val) as (v' & Ev); [lia|].
  destruct (@bm_set_ok M b u true HB Lu) as (b' & Eb & HB' & Hbit).
  exists u, b', k', v'. splits; auto. unfold store. splits; auto.
  - now rewrite (aset_length Ek).
  - now rewrite (aset_length Ev).
  - constructor; auto.
  - intros i. rewrite Hbit. destruct (Nat.eqb_spec i u) as [->|NE].
    + split; auto. now left.
    + rewrite HU. simpl. split; [auto|intros [E|]; [congruence|auto]].
  - constructor.
    + split; cbn [fst snd]; [rewrite (aget_aset u Ek)|rewrite (aget_aset u Ev)]; now rewrite Nat.eqb_refl.
    + eapply Forall2_impl_in; [|exact HE]. intros p e Hp. apply (@ent_other _ _ _ _ _ _ _ _ _ Ek Ev).
      intros ->. auto.
Qed.

Lemma store_move b k v u a c e x y : length a = length x ->
  store b k v (u :: a ++ c) (e :: x ++ y) -> store b k v (a ++ u :: c) (x ++ e :: y).
Proof.
  intros HL (HB & LK & LV & ND & HU & HE). unfold store. splits; auto.
  - apply NoDup_cons_iff in ND as [N1 N2]. apply NoDup_Add with (a := u) (l := a ++ c); auto.
    apply Add_app.
  - intros i. rewrite HU. simpl. rewrite !in_app_iff. simpl. tauto.
  - inversion HE as [|? ? ? ? H1 H2]; subst. apply Forall2_app_inv_l in H2 as (x' & y' & Hx & Hy & E).
    assert (x' = x /\ y' = y) as [-> ->].
    { pose proof (Forall2_length Hx). apply app_inv_len in E; [intuition|congruence]. }
    apply Forall2_app; auto.
Qed.

Lemma Forall2_app_len {A B} (P : A -> B -> Prop) a c x y : length a = length x ->
  Forall2 P (a ++ c) (x ++ y) -> Forall2 P a x /\ Forall2 P c y.
Proof.
  intros L H. apply Forall2_app_inv_l in H as (x' & y' & Hx & Hy & E).
  apply app_inv_len in E as [-> ->]; auto. apply Forall2_length in Hx. congruence.
Qed.

Lemma store_free b k v a p c x e y : length a = length x -> store b k v (a ++ p :: c) (x ++ e :: y) ->
  exists b', bm_reset M b p = Ok b' /\ store b' k v (a ++ c) (x ++ y).
Proof.
  intros HL HS. assert (Hp : p < M). { eapply store_lt; [exact HS|]. rewrite in_app_iff. right. now left. }
  destruct HS as (HB & LK & LV & ND & HU & HE).
  destruct (@bm_reset_ok M b p HB Hp) as (b' & Eb & HB' & Hbit).
  exists b'. split; auto. unfold store. splits; auto.
  - now apply NoDup_remove in ND.
  - apply NoDup_remove in ND as [_ ND]. intros i. rewrite Hbit. destruct (Nat.eqb_spec i p) as [->|NE].
    + split; [discriminate|contradiction].
    + rewrite HU, !in_app_iff. simpl. split; [intros [|[|]]; auto; congruence|tauto].
  - apply Forall2_app_len in HE as [H1 H2]; auto. inversion H2; subst. apply Forall2_app; auto.
Qed.

Lemma store_nth b k v sl es i e : store b k v sl es -> nth_error es i = Some e ->
  exists p, nth_error sl i = Some p /\ ent k v p e.
Proof.
  intros (_ & _ & _ & _ & _ & F). revert i. induction F as [|p x sl es Hp F IH]; intros [|i] E; simpl in *; try discriminate.
  - injection E as <-. eauto.
  - now apply IH.
Qed.

(** ** Leaves *)
Definition wrep (l : leaf) (es : list (Z * V)) : Prop :=
  exists sl R, ws l = Some (length es) :: map Some sl ++ R /\ length (ws l) = S M /\
    store (wb l) (wk l) (wv l) sl es /\ sorted es.

Lemma wrep_sorted l es : wrep l es -> sorted es.
Proof. intros (sl & R & _ & _ & _ & H). exact H. Qed.

Lemma wrep_len l es : wrep l es -> length es <= M.
Proof.
  intros (sl & R & Es & EL & HS & _). rewrite Es in EL. simpl in EL. rewrite app_length, map_length in EL.
  apply store_len in HS. lia.
Qed.

Lemma w_new_rep : wrep (w_new V M) [].
Proof.
  exists [], (anew M). unfold w_new. cbn [ws wb wk wv length map app]. splits; auto.
  - unfold anew. now rewrite repeat_length.
  - unfold store. splits; auto.
    + apply bm_new_ok.
    + apply repeat_length.
    + apply repeat_length.
    + constructor.
    + intros i. rewrite bit_new. split; [discriminate|intros []].
  - constructor.
Qed.

Lemma slot_keys_store s0 b k v sl es R : s0 = Some (length es) :: map Some sl ++ R ->
  store b k v sl es -> slot_keys k s0 (keys es).
Proof.
  intros -> HS. split.
  - cbn. now rewrite keys_length.
  - intros i x Hx. unfold keys in Hx. rewrite nth_error_map in Hx.
    destruct (nth_error es i) as [e|] eqn:E; [|discriminate]. injection Hx as <-.
    destruct (store_nth HS E) as (p & Ep & H1 & _). exists p. split; auto.
    unfold aget. cbn [nth_error]. rewrite nth_error_app1.
    + now rewrite nth_error_map, Ep.
    + rewrite map_length. apply nth_error_Some. congruence.
Qed.

Lemma w_pos_ok l a b key : wrep l (a ++ b) -> pos_spec false key (keys a) (keys b) ->
  w_pos l key = Ok (S (length a)).
Proof.
  intros (sl & R & Es & EL & HS & HO) HP. unfold w_pos.
  rewrite (@sbsearch_pos_correct false key (keys a) (keys b)); auto.
  - now rewrite keys_length.
  - rewrite <- keys_app. eapply slot_keys_store; eauto.
  - rewrite <- keys_app. exact HO.
Qed.

Lemma w_entry_ok l a e b : wrep l (a ++ e :: b) ->
  exists p, aget (ws l) (S (length a)) = Ok p /\ aget (wk l) p = Ok (fst e) /\ aget (wv l) p = Ok (snd e).
Proof.
  intros (sl & R & Es & EL & HS & HO).
  destruct (@store_nth _ _ _ _ _ (length a) e HS) as (p & Ep & H1 & H2).
  { rewrite nth_error_app2 by lia. now rewrite Nat.sub_diag. }
  exists p. splits; auto. rewrite Es. unfold aget. cbn [nth_error]. rewrite nth_error_app1.
  - now rewrite nth_error_map, Ep.
  - rewrite map_length. apply nth_error_Some. congruence.
Qed.

Lemma w_count_ok l es : wrep l es -> aget (ws l) 0 = Ok (length es).
Proof. intros (sl & R & -> & _). reflexivity. Qed.

Lemma pos_alt_agt key (a b : list (Z * V)) : alt key (keys a) -> agt key (keys b) -> pos_spec false key (keys a) (keys b).
Proof. intros Ha Hb. split; auto. eapply Forall_impl; [|exact Hb]. intros x Hx. cbv beta in Hx. lia. Qed.
Lemma pos_alt_eq key w (a b : list (Z * V)) : alt key (keys a) -> agt key (keys b) ->
  pos_spec false key (keys a) (keys ((key, w) :: b)).
Proof.
  intros Ha Hb. split; auto. cbn [keys map fst]. constructor; [lia|].
  eapply Forall_impl; [|exact Hb]. intros x Hx. cbv beta in Hx. lia.
Qed.

Lemma w_lookup_ok l es key : wrep l es -> w_lookup l key = Ok (get key es).
Proof.
  intros H. unfold w_lookup. destruct (locate key (wrep_sorted H)) as [(a & b & -> & Ha & Hb)|(a & w & b & -> & Ha & Hb)].
  - rewrite (w_pos_ok H (pos_alt_agt Ha Hb)), (w_count_ok H). cbn [bind].
    rewrite (get_new Ha Hb). destruct b as [|e b].
    + rewrite app_nil_r. destruct (Nat.leb_spec (S (length a)) (length a)); [lia|reflexivity].
    + rewrite app_length. cbn [length]. destruct (Nat.leb_spec (S (length a)) (length a + S (length b))); [|lia].
      destruct (w_entry_ok H) as (p & F1 & F2 & _). rewrite F1. cbn [bind]. rewrite F2. cbn [bind].
      inversion Hb; subst. destruct (Z.eqb_spec (fst e) key); [lia|reflexivity].
  - rewrite (w_pos_ok H (pos_alt_eq w Ha Hb)), (w_count_ok H). cbn [bind].
    rewrite app_length. cbn [length]. destruct (Nat.leb_spec (S (length a)) (length a + S (length b))); [|lia].
    destruct (w_entry_ok H) as (p & F1 & F2 & F3). rewrite F1. cbn [bind]. rewrite F2. cbn [bind]. rewrite F3. cbn [bind fst snd]. rewrite Z.eqb_refl.
    now rewrite (get_old w b Ha).
Qed.

Lemma w_insert_at_ok l a b key val : wrep l (a ++ b) -> length (a ++ b) < M ->
  alt key (keys a) -> agt key (keys b) ->
  exists l', w_insert_at M l (S (length a)) key val = Ok l' /\ wrep l' (a ++ (key, val) :: b).
Proof.
  intros (sl & R & Es & EL & HS & HO) HL Ha Hb. pose proof (store_len HS) as LS.
  destruct (@store_alloc _ _ _ _ _ key val HS) as (u & b' & k' & v' & Eu & Ek & Ev & Eb & NI & Lu & HS'); [lia|].
  unfold w_insert_at. rewrite Eu. cbn [bind]. rewrite Ek. cbn [bind]. rewrite Ev. cbn [bind].
  rewrite Es. cbn [aget nth_error bind].
  destruct (@split_at _ sl (length a)) as (s1 & s2 & -> & L1); [rewrite LS, app_length; lia|].
  rewrite app_length in LS, HL. rewrite (app_length a b) in LS.
  assert (LR : 0 < length R).
  { rewrite Es in EL. cbn [length] in EL. rewrite app_length, map_length, app_length in EL. lia. }
  destruct R as [|r R]; [simpl in LR; lia|].
  destruct (@move_up nat (fun j s => do x <- cget s j; cset s (j + 1) x) 1 (fun _ _ => eq_refl)
              (map Some s2) (Some (length (a ++ b)) :: map Some s1) [r] R
              (length (a ++ b)) (length (a ++ b) + 1 - S (length a))) as (D & ED & LD); auto.
  { cbn [length]. rewrite !map_length, app_length. lia. }
  { rewrite map_length, app_length. lia. }
  destruct D as [|d [|? ?]]; try discriminate LD.
  cbn [app] in ED. rewrite map_app, <- app_assoc. rewrite ED. cbn [bind].
  change (Some (length (a ++ b)) :: map Some s1 ++ d :: map Some s2 ++ R)
    with ((Some (length (a ++ b)) :: map Some s1) ++ d :: map Some s2 ++ R).
  rewrite aset_app by (cbn [length]; rewrite map_length; lia). cbn [bind].
  rewrite Eb. cbn [bind app aget nth_error aset lset of_opt].
  eexists. split; [reflexivity|].
  exists (s1 ++ u :: s2), R. cbn [ws wb wk wv]. splits.
  - rewrite map_app, <- app_assoc. cbn [map app]. f_equal. f_equal. rewrite !app_length. cbn [length]. lia.
  - rewrite Es in EL. cbn [length] in *. rewrite !app_length, !map_length in *. cbn [length] in *.
    rewrite !app_length, !map_length in *. lia.
  - apply store_move; auto.
  - replace (a ++ (key, val) :: b) with (ins key val (a ++ b)) by now apply ins_new. now apply sorted_ins.
Qed.

Lemma w_set_ok l a key w b val : wrep l (a ++ (key, w) :: b) ->
  exists p vs, aget (ws l) (S (length a)) = Ok p /\ aget (wk l) p = Ok key /\ aset (wv l) p val = Ok vs /\
    wrep (WLeaf (ws l) (wb l) (wk l) vs) (a ++ (key, val) :: b).
Proof.
  intros H. destruct (w_entry_ok H) as (p & E1 & E2 & E3). destruct H as (sl & R & Es & EL & HS & HO).
  assert (Hp : In p sl /\ p < M).
  { assert (In p sl); [|split; auto; eapply store_lt; eauto].
    destruct (@store_nth _ _ _ _ _ (length a) (key, w) HS) as (q & Eq & _).
    { rewrite nth_error_app2 by lia. now rewrite Nat.sub_diag. }
    apply nth_error_In in Eq as Hq. assert (q = p); [|now subst].
    rewrite Es in E1. unfold aget in E1. cbn [nth_error] in E1. rewrite nth_error_app1, nth_error_map, Eq in E1.
    - cbn in E1. congruence.
    - rewrite map_length. apply nth_error_Some. congruence. }
  destruct Hp as [Hp Lp]. pose proof (store_len HS) as LS.
  destruct HS as (HB & LK & LV & ND & HU & HE).
  destruct (@aset_ok _ (wv l) p val) as (vs & Ev); [lia|]. exists p, vs. splits; auto.
  exists sl, R. cbn [ws wb wk wv]. splits; auto.
  - rewrite Es. do 2 f_equal. rewrite !app_length. reflexivity.
  - unfold store. splits; auto.
    + now rewrite (aset_length Ev).
    + destruct (@split_at _ sl (length a)) as (s1 & s2 & -> & L1); [rewrite LS, app_length; lia|].
      apply Forall2_app_len in HE as [H1 H2]; auto. inversion H2 as [|q e s2' b' [Hk Hv] H2' EA EB]; subst.
      assert (q = p) as ->.
      { rewrite Es in E1. rewrite map_app, <- app_assoc in E1. cbn [map app] in E1.
        change (Some (length (a ++ (key, w) :: b)) :: map Some s1 ++ Some q :: map Some s2' ++ R)
          with ((Some (length (a ++ (key, w) :: b)) :: map Some s1) ++ Some q :: map Some s2' ++ R) in E1.
        rewrite aget_app in E1 by (cbn [length]; rewrite map_length; lia). congruence. }
      apply NoDup_remove in ND as [ND1 ND2]. rewrite in_app_iff in ND2.
      apply Forall2_app; [|constructor].
      * eapply Forall2_impl_in; [|exact H1]. intros q e Hq [G1 G2]. split; auto.
        rewrite (aget_aset q Ev). destruct (Nat.eqb_spec q p); [subst; tauto|auto].
      * split; cbn [fst snd]; auto. rewrite (aget_aset p Ev). now rewrite Nat.eqb_refl.
      * eapply Forall2_impl_in; [|exact H2']. intros q e Hq [G1 G2]. split; auto.
        rewrite (aget_aset q Ev). destruct (Nat.eqb_spec q p); [subst; tauto|auto].
  - unfold sorted in *. rewrite keys_app in *. exact HO.
Qed.

(** Insert into a leaf that has room, or of a key that is already there. *)
Lemma w_insert_room l es key val : wrep l es -> length es < M \/ get key es <> None ->
  exists l', w_insert M l key val = Ok (LDone l') /\ wrep l' (ins key val es).
Proof.
  intros H HL. unfold w_insert. pose proof (wrep_len H) as LM.
  destruct (locate key (wrep_sorted H)) as [(a & b & -> & Ha & Hb)|(a & w & b & -> & Ha & Hb)].
  - rewrite (w_pos_ok H (pos_alt_agt Ha Hb)), (w_count_ok H). cbn [bind].
    rewrite (get_new Ha Hb) in HL. destruct HL as [HL|]; [|congruence].
    match goal with |- context [bind (if ?c then ?x else ?y) _] => assert (E : (if c then x else y) = Ok None) end.
    { destruct b as [|e b].
      + rewrite app_nil_r. destruct (Nat.leb_spec (S (length a)) (length a)); [lia|reflexivity].
      + destruct (Nat.leb_spec (S (length a)) (length (a ++ e :: b))); auto.
        destruct (w_entry_ok H) as (p & F1 & F2 & _). rewrite F1. cbn [bind]. rewrite F2. cbn [bind].
        inversion Hb; subst. destruct (Z.eqb_spec (fst e) key); [lia|reflexivity]. }
    rewrite E. cbn [bind]. destruct (Nat.eqb_spec (length (a ++ b)) M); [lia|].
    destruct (@w_insert_at_ok l a b key val) as (l' & -> & H'); auto. cbn [bind]. exists l'. split; auto.
    now rewrite ins_new.
  - rewrite (w_pos_ok H (pos_alt_eq w Ha Hb)), (w_count_ok H). cbn [bind].
    destruct (Nat.leb_spec (S (length a)) (length (a ++ (key, w) :: b))) as [_|G].
    2:{ rewrite app_length in G. cbn [length] in G. lia. }
    destruct (@w_set_ok l a key w b val H) as (p & vs & F1 & F2 & Ev & H'). rewrite F1. cbn [bind]. rewrite F2. cbn [bind].
    rewrite Z.eqb_refl. cbn [bind]. rewrite Ev. cbn [bind]. eexists. split; [reflexivity|].
    now rewrite ins_old.
Qed.

(** ** Erase *)
Lemma w_erase_ok l es key : wrep l es -> length es < M -> get key es <> None ->
  exists l', w_erase M l key = Ok (true, l') /\ wrep l' (del key es).
Proof.
  intros H HL HG. destruct (locate key (wrep_sorted H)) as [(a & b & -> & Ha & Hb)|(a & w & b & -> & Ha & Hb)].
  { rewrite (get_new Ha Hb) in HG. congruence. }
  unfold w_erase. rewrite (w_pos_ok H (pos_alt_eq w Ha Hb)). cbn [bind].
  destruct (w_entry_ok H) as (p & E1 & E2 & E3). rewrite E1. cbn [bind]. rewrite E2. cbn [bind fst].
  rewrite Z.eqb_refl. unfold w_erase_at. rewrite E1. cbn [bind].
  destruct H as (sl & R & Es & EL & HS & HO). pose proof (store_len HS) as LS.
  destruct (@split_at _ sl (length a)) as (s1 & s2 & -> & L1); [rewrite LS, app_length; lia|].
  destruct s2 as [|q s2]; [rewrite !app_length in LS; cbn [length] in LS; lia|].
  assert (q = p) as ->.
  { rewrite Es in E1. rewrite map_app, <- app_assoc in E1. cbn [map app] in E1.
    change (Some (length (a ++ (key, w) :: b)) :: map Some s1 ++ Some q :: map Some s2 ++ R)
      with ((Some (length (a ++ (key, w) :: b)) :: map Some s1) ++ Some q :: map Some s2 ++ R) in E1.
    rewrite aget_app in E1 by (cbn [length]; rewrite map_length; lia). congruence. }
  destruct (@store_free _ _ _ s1 p s2 a (key, w) b L1 HS) as (b' & Eb & HS').
  rewrite Eb. cbn [bind]. rewrite Es. cbn [aget nth_error bind].
  rewrite app_length in LS, HL. rewrite app_length in LS. cbn [length] in LS, HL.
  destruct R as [|r R].
  { rewrite Es in EL. cbn [length] in EL. rewrite app_nil_r, map_length, app_length in EL. cbn [length] in EL. lia. }
  destruct (@move_down nat (fun i s => do x <- cget s (i + 1); cset s i x) 1) with
      (X := map Some s2 ++ [r]) (P := Some (length (a ++ (key, w) :: b)) :: map Some s1)
      (G := [Some p]) (R := R) (lo := S (length a)) (n := length (a ++ (key, w) :: b) + 1 - S (length a))
    as (T & ET & LT); auto.
  { intros i s. now rewrite (Nat.add_comm i 1). }
  { cbn [length]. rewrite map_length. lia. }
  { rewrite !app_length, map_length. cbn [length]. lia. }
  rewrite map_app. cbn [map]. cbn [app] in ET.
  replace ((map Some s1 ++ Some p :: map Some s2) ++ r :: R)
    with (map Some s1 ++ Some p :: (map Some s2 ++ [r]) ++ R) by now rewrite <- !app_assoc.
  rewrite ET. cbn [bind aset lset of_opt].
  eexists. split; [reflexivity|]. rewrite del_old by auto.
  exists (s1 ++ s2), (r :: T). cbn [ws wb wk wv]. splits; auto.
  - rewrite map_app, <- !app_assoc. cbn [app]. f_equal. f_equal. rewrite !app_length. cbn [length]. lia.
  - rewrite Es in EL. cbn [length] in *. rewrite !app_length, !map_length in *. cbn [length] in *.
    rewrite !app_length in EL. cbn [length] in EL. lia.
  - unfold sorted in *. rewrite keys_app in *. cbn [keys map] in HO. apply ssorted_app in HO as (O1 & O2 & O3).
    apply ssorted_app. splits; auto.
    + now apply ssorted_cons in O2 as [O2 _].
    + intros x y Hx Hy. apply O3; auto. now right.
Qed.

(** A key that is absent while a larger one is in the leaf is reported absent. *)
Lemma w_erase_absent l a e b key : wrep l (a ++ e :: b) -> alt key (keys a) -> (key < fst e)%Z ->
  w_erase M l key = Ok (false, l).
Proof.
  intros H Ha He. unfold w_erase. rewrite (w_pos_ok (a := a) (b := e :: b) H).
  - cbn [bind]. destruct (w_entry_ok H) as (p & F1 & F2 & _). rewrite F1. cbn [bind]. rewrite F2. cbn [bind].
    destruct (Z.eqb_spec (fst e) key); [lia|reflexivity].
  - apply pos_alt_agt; auto. apply wrep_sorted in H. unfold sorted in H. rewrite keys_app in H.
    apply ssorted_app in H as (_ & H & _). cbn [keys map] in *. apply ssorted_cons in H as [_ H].
    constructor; auto. eapply Forall_impl; [|exact H]. cbv beta. intros; lia.
Qed.

(** ** Scan *)
Lemma w_scan_ok l es : wrep l es -> w_scan l = Ok es.
Proof.
  intros H. unfold w_scan. rewrite (w_count_ok H). cbn [bind].
  assert (G : forall b a, es = a ++ b ->
    for_up (S (length a)) (length b) (fun i s => do e <- w_entry l i; Ok (s ++ [(snd (fst e), snd e)])) a = Ok es).
  { induction b as [|e b IH]; intros a E.
    - subst. now rewrite app_nil_r.
    - cbn [length for_up]. unfold w_entry at 1. rewrite E in H.
      destruct (w_entry_ok H) as (p & F1 & F2 & F3). rewrite F1. cbn [bind]. rewrite F2. cbn [bind]. rewrite F3. cbn [bind fst snd]. rewrite <- surjective_pairing.
      rewrite <- (IH (a ++ [e])).
      + rewrite app_length. cbn [length]. now replace (length a + 1) with (S (length a)) by lia.
      + rewrite <- app_assoc. exact E. }
  apply (G es []). reflexivity.
Qed.
End Store.
