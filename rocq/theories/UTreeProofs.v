(** UnsortedPBPTree as long as all entries fit into one leaf. *)
From Verif Require Import Base ArrLemmas MapSpec SortedList RankModel BTreeModel BTreeSpec BTreeLaws SLeafModel
  SLeafProofs ULeafModel ULeafProofs.
Open Scope nat_scope.

Lemma lists_len {V} (es out : list (Z * V)) m : sorted es -> (forall k, get k es = m k) -> lists m out ->
  length out = length es.
Proof.
  intros HS HG [H1 H2]. assert (E : out = es); [|now rewrite E].
  assert (HS' : sorted out) by exact H1.
  apply sorted_perm_eq; auto. apply NoDup_Permutation.
  - eapply NoDup_map_inv. exact (sorted_keys_nodup HS').
  - eapply NoDup_map_inv. exact (sorted_keys_nodup HS).
  - intros [k v]. rewrite H2, <- HG. symmetry. now rewrite get_in.
Qed.

Section UTree.
Variables (V : Type) (t : ktype) (N M : nat).
Hypothesis HM : 2 <= M.
Hypothesis Ht : (1 <= kt_bits t <= 64)%Z.
Notation O := (un_ops V t M).

Lemma ul_insert_room l (es : list (Z * V)) k v : kt_in t k -> ul_rep t M l es -> length (ins k v es) <= M ->
  exists l', ul_insert t M l k v = Ok (LDone l') /\ ul_rep t M l' (ins k v es).
Proof.
  intros Kk HR HL. destruct (ul_insert_ok HM Ht v Kk HR) as [H|(l1 & l2 & s & e1 & e2 & E & _)]; [exact H|].
  exfalso. destruct HR as (HS & HK & xs & HP & HR). pose proof HR as (Hn & _). unfold ul_insert in E.
  destruct (ua_split k HS HP) as [[G NI]|(w & xs1 & xs2 & G & -> & NI & _)].
  - rewrite (ul_pos_miss HR NI) in E. cbn [bind] in E.
    replace (length xs <? sn l) with false in E by (rewrite Hn; symmetry; apply Nat.ltb_irrefl). cbn [bind] in E.
    rewrite length_ins_new in HL by assumption. rewrite <- (Permutation_length HP) in HL.
    destruct (Nat.eqb_spec (sn l) M) as [E1|_]; [lia|].
    destruct (ul_append l k v); discriminate.
  - rewrite (ul_pos_hit HR NI) in E. cbn [bind] in E. rewrite Hn, app_length in E. cbn [length] in E.
    destruct (Nat.ltb_spec (length xs1) (length xs1 + S (length xs2))) as [_|]; [|lia].
    destruct (ua_key HR eq_refl) as [Ek _]. rewrite Ek in E. cbn [bind] in E. rewrite Z.eqb_refl in E.
    destruct (aset (sv l) (length xs1) v); discriminate.
Qed.

(** Histories that never hold more than [M] entries. *)
Fixpoint small_hist (m : amap V) (os : list (mop V)) : Prop :=
  match os with
  | [] => True
  | o :: r => op_ok m o /\ (match o with OpInsert k _ => kt_in t k | OpErase _ _ => True end) /\
      (exists out, lists (m_step m o) out /\ length out <= M) /\ small_hist (m_step m o) r
  end.

Lemma small_run os : forall (tr : tree (sleaf V)) l es m, tdepth tr = 0 -> hl (th tr) (troot tr) = Some l ->
  ul_rep t M l es -> (forall k, get k es = m k) -> small_hist m os ->
  exists tr' l' es', t_run N M O tr (map bop_of os) = Ok tr' /\ tdepth tr' = 0 /\
    hl (th tr') (troot tr') = Some l' /\ ul_rep t M l' es' /\ forall k, get k es' = fold_left (@m_step V) os m k.
Proof.
  induction os as [|o os IH]; intros tr l es m D El HR HG HH.
  - exists tr, l, es. cbn [map t_run fold_left]. auto.
  - cbn [small_hist] in HH. destruct HH as (Ho & Hk & (out & HL & Hlen) & HH).
    pose proof HR as (HS & _). destruct o as [k v|k]; cbn [map bop_of t_run t_step fold_left].
    + assert (HG' : forall x, get x (ins k v es) = m_step m (OpInsert k v) x).
      { intros x. rewrite get_ins by assumption. cbn [m_step]. unfold m_put. destruct (x =? k)%Z; auto. }
      rewrite (lists_len (sorted_ins k v HS) HG' HL) in Hlen.
      destruct (ul_insert_room Hk HR Hlen) as (l' & E & HR').
      unfold t_insert. rewrite D. unfold insert_leaf, getl. rewrite El. cbn [of_opt bind].
      change (lo_insert O) with (@ul_insert V t M). rewrite E. cbn [bind].
      refine (IH _ l' _ _ _ _ HR' HG' HH); cbn [tdepth th troot set_leaf hl]; auto.
      unfold upd. now rewrite Nat.eqb_refl.
    + cbn [op_ok] in Ho. rewrite <- HG in Ho. destruct (ul_erase_ok HR Ho) as (l' & E & (HR' & _)).
      unfold t_erase. rewrite D. unfold erase_leaf, getl. rewrite El. cbn [of_opt bind].
      change (lo_erase O) with (@ul_erase V). rewrite E. cbn [bind fst snd].
      refine (IH _ l' _ _ _ _ HR' _ HH); cbn [tdepth th troot set_leaf hl fst]; auto.
      * unfold upd. now rewrite Nat.eqb_refl.
      * intros x. rewrite get_del by assumption. cbn [m_step]. unfold m_del. destruct (x =? k)%Z; auto.
Qed.

Lemma small_ok os : small_hist m_empty os ->
  exists tr, t_run N M O (t_new O) (map bop_of os) = Ok tr /\ forall k, t_lookup O tr k = Ok (m_run os k).
Proof.
  intros HH. destruct (@small_run os (t_new O) (sl_new V M) [] m_empty) as (tr & l & es & E & D & El & HR & HG); auto.
  - exact (law_new (ul_laws V HM Ht)).
  - exists tr. split; auto. intros k. unfold t_lookup. rewrite D. cbn [find_leaf bind]. unfold getl. rewrite El. cbn [of_opt bind].
    rewrite (law_lookup (ul_laws V HM Ht) k HR). now rewrite HG.
Qed.
(** A way to establish [small_hist] by computation. *)
Fixpoint small_chk (es : list (Z * V)) (os : list (mop V)) : bool :=
  match os with
  | [] => true
  | OpInsert k v :: r => (kt_min t <=? k)%Z && (k <=? kt_max t)%Z && (length (ins k v es) <=? M) && small_chk (ins k v es) r
  | OpErase _ k :: r => match get k es with Some _ => (length (del k es) <=? M) && small_chk (del k es) r | None => false end
  end.
Lemma small_chk_ok os : forall es m, sorted es -> (forall k, get k es = m k) -> small_chk es os = true -> small_hist m os.
Proof.
  clear HM Ht. induction os as [|o os IH]; intros es m HS HG HC; cbn [small_hist]; [exact Logic.I|].
  destruct o as [k v|k]; cbn [small_chk] in HC.
  - rewrite !andb_true_iff in HC. destruct HC as (((C1 & C2) & C3) & C4). apply Nat.leb_le in C3.
    assert (HG' : forall x, get x (ins k v es) = m_step m (OpInsert k v) x).
    { intros x. rewrite get_ins by assumption. cbn [m_step]. unfold m_put. destruct (x =? k)%Z; auto. }
    pose proof (sorted_ins k v HS) as HS'. cbn [op_ok]. split; [exact Logic.I|]. split; [unfold kt_in; lia|]. split.
    + exists (ins k v es). split; auto. destruct (sorted_lists HS') as [L1 L2]. split; auto. intros x w. now rewrite <- HG'.
    + eapply IH; eauto.
  - destruct (get k es) as [w|] eqn:G; [|discriminate]. rewrite andb_true_iff in HC. destruct HC as (C3 & C4). apply Nat.leb_le in C3.
    assert (HG' : forall x, get x (del k es) = m_step m (OpErase _ k) x).
    { intros x. rewrite get_del by assumption. cbn [m_step]. unfold m_del. destruct (x =? k)%Z; auto. }
    pose proof (sorted_del k HS) as HS'. cbn [op_ok]. split; [rewrite <- HG; congruence|]. split; [exact Logic.I|]. split.
    + exists (del k es). split; auto. destruct (sorted_lists HS') as [L1 L2]. split; auto. intros x u. now rewrite <- HG'.
    + eapply IH; eauto.
Qed.
End UTree.
